(** Rounding errors of the CEC 2014 functions. *)
From Coq Require Import List ZArith Bool Lia Reals Lra Psatz.
From Flocq Require Import Core IEEE754.BinarySingleNaN Relative Plus_error.
From Verif Require Import PyBase B64 B64More Rand Trunc Sign Models ModelThms FloatSum Bench BenchThms BenchCec BenchFloat BenchFloatThms BenchNear BenchWave BenchNan CecFloat CecFloatThms.
Import ListNotations.
Local Open Scope res_scope.
Open Scope R_scope.

(** The files read as real numbers. *)
Definition reals (D : data_f) : data := {|
  shift_file k := option_map (map B2R) (shift_nums D k); rot_file k d := option_map (map B2R) (rot_nums D k d) |}.
(** The shifts lie in [-100, 100], the entries of the rotations in [-4, 4] (the matrices that come with the package are not all orthogonal). *)
Definition tame (D : data_f) : Prop := forall k l, (shift_nums D k = Some l -> forall v, In v l -> Rabs (B2R v) <= 100) /\
  forall d, rot_nums D k d = Some l -> forall v, In v l -> Rabs (B2R v) <= 4.
(** The sum of the products of two lists. *)
Definition inner (r v : list R) : R := fold_left Rplus (map (fun p => fst p * snd p) (combine r v)) 0.
(** What is assumed of the product of a row and a vector: an error of a few roundings for each term. *)
Definition dot_near (dot : list f64 -> list f64 -> f64) : Prop := forall r v, List.length r = List.length v -> (List.length v <= 100)%nat ->
  (forall a, In a r -> isfin a = true /\ Rabs (B2R a) <= 4) -> (forall a, In a v -> isfin a = true /\ Rabs (B2R a) <= 10000) ->
  isfin (dot r v) = true /\
  Rabs (B2R (dot r v) - inner (map B2R r) (map B2R v)) <= 4 * INR (List.length v) * u * inner (map (fun a => Rabs (B2R a)) r) (map (fun a => Rabs (B2R a)) v) + 4 * INR (List.length v) * eta.

Lemma fold_plus l : forall a, fold_left Rplus l a = a + Rsum l.
Proof. unfold Rsum. induction l as [|b l IH]; intros a; cbn; [lra|]. rewrite IH. lra. Qed.
Lemma inner_sum r v : inner r v = Rsum (map (fun p => fst p * snd p) (combine r v)).
Proof. unfold inner. rewrite fold_plus. lra. Qed.
Lemma inner_cons a r b v : inner (a :: r) (b :: v) = a * b + inner r v.
Proof. rewrite !inner_sum. reflexivity. Qed.
Lemma inner_nil v : inner [] v = 0. Proof. reflexivity. Qed.
Lemma combine_map {A B C D} (f : A -> C) (g : B -> D) : forall l k, combine (map f l) (map g k) = map (fun p => (f (fst p), g (snd p))) (combine l k).
Proof. induction l as [|a l IH]; intros [|b k]; cbn; try reflexivity. rewrite IH. reflexivity. Qed.

(** Rounding the products and adding them in any order will do. *)
Lemma dot_any s : adds s -> dot_near (fun r v => s (map (fun p => fmul (fst p) (snd p)) (combine r v))).
Proof.
  intros Hs r v L N Hr Hv. rewrite !inner_sum, !combine_map, !map_map. cbn [fst snd].
  set (ts := map (fun p : f64 * f64 => (fmul (fst p) (snd p), (B2R (fst p) * B2R (snd p), u * Rabs (B2R (fst p) * B2R (snd p)) + eta))) (combine r v)).
  assert (LT : List.length ts = List.length v) by (unfold ts; rewrite map_length, combine_length; lia).
  assert (In' : forall p, In p (combine r v) -> isfin (fst p) = true /\ Rabs (B2R (fst p)) <= 4 /\ isfin (snd p) = true /\ Rabs (B2R (snd p)) <= 10000).
  { intros [p q] Hp. cbn [fst snd]. destruct (Hr p (in_combine_l _ _ _ _ Hp)). destruct (Hv q (in_combine_r _ _ _ _ Hp)). tauto. }
  assert (HG : 1073741824 <= huge) by (unfold huge; replace 1073741824 with (bpow radix2 30) by (cbn; lra); apply bpow_le; lia).
  pose proof u_pos. pose proof u_small. pose proof eta_pos. assert (E1 : eta <= 1) by (unfold eta; change 1 with (bpow radix2 0); apply bpow_le; lia).
  assert (PR : forall p, In p (combine r v) -> Rabs (B2R (fst p) * B2R (snd p)) <= 40000).
  { intros p Hp. destruct (In' p Hp) as (_ & B1 & _ & B2). rewrite Rabs_mult. replace 40000 with (4 * 10000) by lra. apply Rmult_le_compat; try apply Rabs_pos; assumption. }
  assert (K : Forall known ts).
  { apply Forall_forall. intros t Ht. apply in_map_iff in Ht as (p & <- & Hp). destruct (In' p Hp) as (F1 & B1 & F2 & B2). specialize (PR p Hp).
    destruct (mul_rel (fst p) (snd p) F1 F2 ltac:(lra)) as [F (e & t & He & Ht & E)]. split; [exact F|]. cbn [fst snd]. rewrite E.
    replace (B2R (fst p) * B2R (snd p) * (1 + e) + t - B2R (fst p) * B2R (snd p)) with (B2R (fst p) * B2R (snd p) * e + t) by ring.
    eapply Rle_trans; [apply Rabs_triang|]. rewrite Rabs_mult. pose proof (Rabs_pos (B2R (fst p) * B2R (snd p))).
    assert (Rabs (B2R (fst p) * B2R (snd p)) * Rabs e <= Rabs (B2R (fst p) * B2R (snd p)) * u) by (apply Rmult_le_compat_l; assumption). lra. }
  assert (SZ : Rsum (map size ts) = (1 + u) * Rsum (map (fun p : f64 * f64 => Rabs (B2R (fst p)) * Rabs (B2R (snd p))) (combine r v)) + INR (List.length v) * eta /\
               Rsum (map (fun p => snd (snd p)) ts) = u * Rsum (map (fun p : f64 * f64 => Rabs (B2R (fst p)) * Rabs (B2R (snd p))) (combine r v)) + INR (List.length v) * eta /\
               Rsum (map (fun p => fst (snd p)) ts) = Rsum (map (fun p : f64 * f64 => B2R (fst p) * B2R (snd p)) (combine r v)) /\
               0 <= Rsum (map (fun p : f64 * f64 => Rabs (B2R (fst p)) * Rabs (B2R (snd p))) (combine r v)) <= INR (List.length v) * 40000).
  { rewrite <- LT. unfold ts. clear - PR. rewrite map_length. induction (combine r v) as [|p l IH].
    - cbn. unfold Rsum. cbn. repeat split; lra.
    - destruct (IH (fun q Hq => PR q (or_intror Hq))) as (I1 & I2 & I3 & I4 & I5). specialize (PR p (or_introl eq_refl)).
      unfold Rsum in *. cbn [map fold_right List.length]. rewrite I1, I2, I3. cbn [fst snd size]. unfold size. cbn [fst snd]. rewrite S_INR, Rabs_mult in *.
      pose proof (Rmult_le_pos _ _ (Rabs_pos (B2R (fst p))) (Rabs_pos (B2R (snd p)))). repeat split; lra. }
  destruct SZ as (S1 & S2 & S3 & S4 & S5). pose proof (INR_100 _ N) as ND.
  destruct (sum_near ts (s (map (fun p => fmul (fst p) (snd p)) (combine r v)))) as [F E].
  - unfold ts. rewrite map_map. cbn [fst]. apply Hs.
  - exact K.
  - unfold few. rewrite LT. lia.
  - rewrite S1. assert (u * Rsum (map (fun p : f64 * f64 => Rabs (B2R (fst p)) * Rabs (B2R (snd p))) (combine r v)) <= / 1024 * (100 * 40000)) by (apply Rmult_le_compat; lra).
    assert (INR (List.length v) * eta <= 100 * 1) by (apply Rmult_le_compat; lra). lra.
  - split; [exact F|]. rewrite S1, S2, S3, LT in E. eapply Rle_trans; [exact E|].
    set (T := Rsum (map (fun p : f64 * f64 => Rabs (B2R (fst p)) * Rabs (B2R (snd p))) (combine r v))) in *. fold f64.
    match goal with |- _ <= 4 * ?n * u * ?e + _ => change e with T end.
    destruct (Nat.eq_dec (List.length v) 0) as [Z|Z].
    + rewrite Z in *. cbn [INR] in *. assert (T = 0) by lra. rewrite H2. lra.
    + assert (N1 : 1 <= INR (List.length v)) by (apply (le_INR 1); lia). set (n := INR (List.length v)) in *.
      assert (A1 : u * T <= n * u * T) by (pose proof (Rmult_le_pos u T ltac:(lra) ltac:(lra)); nra).
      assert (A2 : n * u * (u * T) <= n * u * T / 1024) by (pose proof (Rmult_le_pos (n * u) T ltac:(nra) ltac:(lra)); nra).
      assert (A3 : n * u * (n * eta) <= n * eta).
      { assert (n * u <= 100 * / 1024) by (apply Rmult_le_compat; lra). pose proof (Rmult_le_pos n eta ltac:(lra) ltac:(lra)).
        assert (n * u * (n * eta) <= 1 * (n * eta)) by (apply Rmult_le_compat_r; lra). lra. }
      pose proof (Rmult_le_pos (n * u) T ltac:(apply Rmult_le_pos; lra) ltac:(lra)). pose proof (Rmult_le_pos n eta ltac:(lra) ltac:(lra)). lra.
Qed.

(* ---------------- the argument ---------------- *)
(** The factor C, or its double: none stands for 1. *)
Definition factor (c : option f64) (C : R) : Prop := 1 / 1000 <= C <= 10 /\
  match c with None => C = 1 | Some c => isfin c = true /\ Rabs (B2R c - C) <= 4 * u * C end.
Definition times1 (c : option f64) (v : f64) : f64 := match c with None => v | Some c => fmul c v end.
Lemma times_map c v : times c v = map (times1 c) v.
Proof. destruct c; cbn; [reflexivity|]. symmetry. apply map_id. Qed.
Lemma u_tiny : u <= / 1000000000.
Proof. apply Rle_trans with (bpow radix2 (-30)); [unfold u; apply bpow_le; lia|cbn; lra]. Qed.
Lemma eta_u : eta * 1000000000 <= u.
Proof. apply Rle_trans with (eta * bpow radix2 30); [apply Rmult_le_compat_l; [apply Rlt_le, eta_pos|cbn; lra]|]. unfold eta, u. rewrite <- bpow_plus. apply bpow_le. lia. Qed.
Lemma huge_2_30 : 1000000000 <= huge.
Proof. apply Rle_trans with (bpow radix2 30); [cbn; lra|]. unfold huge. apply bpow_le. lia. Qed.
Lemma elem_near c C a s : factor c C -> isfin a = true -> isfin s = true -> Rabs (B2R a) <= 100 -> Rabs (B2R s) <= 100 ->
  isfin (times1 c (fsub a s)) = true /\ Rabs (B2R (times1 c (fsub a s)) - C * (B2R a - B2R s)) <= 1600 * C * u /\ Rabs (C * (B2R a - B2R s)) <= 200 * C.
Proof.
  intros [HC Hc] Fa Fs Ba Bs. pose proof u_pos. pose proof u_tiny. pose proof eta_u. pose proof eta_pos. pose proof huge_2_30.
  assert (B : Rabs (B2R a - B2R s) <= 200). { unfold Rminus. eapply Rle_trans; [apply Rabs_triang|]. rewrite Rabs_Ropp. lra. }
  destruct (sub_rel a s Fa Fs ltac:(lra)) as [F (e & He & E)]. set (y := B2R a - B2R s) in *.
  assert (BC : Rabs (C * y) <= 200 * C). { rewrite Rabs_mult, (Rabs_pos_eq C) by lra. assert (C * Rabs y <= C * 200) by (apply Rmult_le_compat_l; lra). lra. }
  assert (Dv : Rabs (B2R (fsub a s) - y) <= 200 * u).
  { rewrite E. replace (y * (1 + e) - y) with (y * e) by ring. rewrite Rabs_mult. apply Rmult_le_compat; try apply Rabs_pos; assumption. }
  destruct c as [c|]; cbn [times1].
  2:{ subst C. split; [exact F|]. split; [|exact BC]. rewrite Rmult_1_l. lra. }
  destruct Hc as [Fc Dc]. set (v := fsub a s) in *.
  assert (Bv : Rabs (B2R v) <= 201). { replace (B2R v) with (y + (B2R v - y)) by ring. eapply Rle_trans; [apply Rabs_triang|]. lra. }
  assert (Bc : Rabs (B2R c) <= 11). { replace (B2R c) with (C + (B2R c - C)) by ring. eapply Rle_trans; [apply Rabs_triang|]. rewrite (Rabs_pos_eq C) by lra. assert (4 * u * C <= 1) by nra. lra. }
  assert (Bp : Rabs (B2R c * B2R v) <= 11 * 201) by (rewrite Rabs_mult; apply Rmult_le_compat; try apply Rabs_pos; assumption).
  destruct (mul_rel c v Fc F ltac:(lra)) as [Fm (g & t & Hg & Ht & Em)]. split; [exact Fm|]. split; [|exact BC]. rewrite Em.
  assert (D1 : Rabs (B2R c * B2R v - C * y) <= 4 * u * C * 201 + C * (200 * u)).
  { replace (B2R c * B2R v - C * y) with ((B2R c - C) * B2R v + C * (B2R v - y)) by ring. eapply Rle_trans; [apply Rabs_triang|]. rewrite !Rabs_mult, (Rabs_pos_eq C) by lra.
    apply Rplus_le_compat; [apply Rmult_le_compat; try apply Rabs_pos; assumption|apply Rmult_le_compat_l; lra]. }
  assert (CU : 0 < C * u) by (apply Rmult_lt_0_compat; lra).
  assert (CU1 : C * u <= C * / 1000000000) by (apply Rmult_le_compat_l; lra).
  assert (B2 : Rabs (B2R c * B2R v) <= 201 * C). { replace (B2R c * B2R v) with (C * y + (B2R c * B2R v - C * y)) by ring. eapply Rle_trans; [apply Rabs_triang|]. nra. }
  replace (B2R c * B2R v * (1 + g) + t - C * y) with ((B2R c * B2R v - C * y) + B2R c * B2R v * g + t) by ring.
  eapply Rle_trans; [apply Rabs_triang|]. eapply Rle_trans; [apply Rplus_le_compat_r, Rabs_triang|]. rewrite (Rabs_mult (B2R c * B2R v) g).
  assert (Rabs (B2R c * B2R v) * Rabs g <= 201 * C * u) by (apply Rmult_le_compat; try apply Rabs_pos; assumption).
  assert (eta <= C * u) by nra. lra.
Qed.

(** Each component within delta. *)
Definition lies_near (delta : R) (z e : list R) : Prop := Forall2 (fun a b => Rabs (a - b) <= delta) z e.
Lemma near_length b z e : lies_near b z e -> List.length z = List.length e.
Proof. induction 1; cbn; congruence. Qed.
Lemma inner_diff b : forall r w y, List.length r = List.length w -> (forall a, In a r -> Rabs a <= 4) -> lies_near b w y -> Rabs (inner r w - inner r y) <= 4 * INR (List.length w) * b.
Proof.
  induction r as [|a r IH]; intros w y L Hr N.
  - destruct w; [|discriminate]. rewrite !inner_nil, Rminus_0_r, Rabs_R0. cbn. lra.
  - destruct w as [|w ws]; [discriminate|]. inversion N as [|? y0 ? ys H0 H1]; subst. cbn [List.length]. rewrite !inner_cons, S_INR.
    replace (a * w + inner r ws - (a * y0 + inner r ys)) with (a * (w - y0) + (inner r ws - inner r ys)) by ring.
    eapply Rle_trans; [apply Rabs_triang|]. rewrite Rabs_mult. pose proof (IH ws ys ltac:(cbn in L; lia) (fun c Hc => Hr c (or_intror Hc)) H1).
    assert (Rabs a * Rabs (w - y0) <= 4 * b) by (apply Rmult_le_compat; try apply Rabs_pos; [apply Hr; left; reflexivity|exact H0]). lra.
Qed.
Lemma inner_le b : forall r w, List.length r = List.length w -> (forall a, In a r -> Rabs a <= 4) -> (forall a, In a w -> Rabs a <= b) -> Rabs (inner r w) <= 4 * INR (List.length w) * b.
Proof.
  induction r as [|a r IH]; intros w L Hr Hw.
  - destruct w; [|discriminate]. rewrite inner_nil, Rabs_R0. cbn. lra.
  - destruct w as [|w ws]; [discriminate|]. cbn [List.length]. rewrite inner_cons, S_INR. eapply Rle_trans; [apply Rabs_triang|]. rewrite Rabs_mult.
    pose proof (IH ws ltac:(cbn in L; lia) (fun c Hc => Hr c (or_intror Hc)) (fun c Hc => Hw c (or_intror Hc))).
    assert (Rabs a * Rabs w <= 4 * b) by (apply Rmult_le_compat; try apply Rabs_pos; [apply Hr; left; reflexivity|apply Hw; left; reflexivity]). lra.
Qed.

Lemma pairs_near c C : factor c C -> forall l : list (f64 * f64),
  (forall p, In p l -> isfin (fst p) = true /\ isfin (snd p) = true /\ Rabs (B2R (fst p)) <= 100 /\ Rabs (B2R (snd p)) <= 100) ->
  lies_near (1600 * C * u) (map (fun p => B2R (times1 c (fsub (fst p) (snd p)))) l) (map (fun p => C * (B2R (fst p) - B2R (snd p))) l).
Proof.
  intros Hc. unfold lies_near. induction l as [|p l IH]; intros HP; cbn [map]; [constructor|]. constructor; [|apply IH; intros r Hr; apply HP; right; exact Hr].
  destruct (HP p (or_introl eq_refl)) as (F1 & F2 & B1 & B2). apply (elem_near c C _ _ Hc F1 F2 B1 B2).
Qed.

(** How far the argument of the function is off. *)
Definition drift (d : nat) (C : R) : R := INR d * (3250 * INR d + 6500) * C * u.
(** The argument computed and the exact one. *)
Definition follows (d : nat) (delta : R) (r : res (list f64)) (s : res (list R)) : Prop :=
  exists z e, r = Ok z /\ s = Ok e /\ List.length z = d /\ (forall a, In a z -> isfin a = true) /\ lies_near delta (map B2R z) e /\ forall a, In a e -> Rabs a <= 800000.

Section Arg.
Variables (dot : list f64 -> list f64 -> f64) (D : data_f) (d k : nat) (c : option f64) (C : R) (x : list f64).
Hypothesis Hdot : dot_near dot.
Hypothesis HD : shipped_f D.
Hypothesis HT : tame D.
Hypothesis Hd : In d [2; 10; 20; 30; 50; 100]%nat.
Hypothesis Hk : (1 <= k <= 16)%nat.
Hypothesis Hc : factor c C.
Hypothesis Lx : List.length x = d.
Hypothesis Hx : forall a, In a x -> isfin a = true /\ Rabs (B2R a) <= 100.
Let d100 : (1 <= d <= 100)%nat. Proof. cbn in Hd. lia. Qed.

Lemma shifted_near : exists w y, shifted_f D d k c x = Ok w /\ shifted (reals D) d k C (map B2R x) = Ok y /\ List.length w = d /\
  (forall a, In a w -> isfin a = true /\ Rabs (B2R a) <= 10000 /\ Rabs (B2R a) <= 201 * C) /\ lies_near (1600 * C * u) (map B2R w) y /\ (forall a, In a y -> Rabs a <= 200 * C) /\
  (exists v, load_shift_f D d k = Ok (shift_of_f D d k) /\ np_sub_f x (shift_of_f D d k) = Ok v /\ times c v = w) /\
  (exists s v, load_shift (reals D) d k = Ok s /\ np_sub (map B2R x) s = Ok v /\ map (Rmult C) v = y).
Proof.
  destruct (HD k Hk) as [(l & El & Ll & Fl) _]. destruct (HT k l) as [Tl _]. specialize (Tl El).
  assert (Ls : List.length (firstn d l) = d) by (rewrite firstn_length; lia).
  assert (ES : load_shift_f D d k = Ok (shift_of_f D d k)) by (unfold load_shift_f, shift_of_f; rewrite El; reflexivity).
  assert (EV : np_sub_f x (shift_of_f D d k) = Ok (map (fun p => fsub (fst p) (snd p)) (combine x (firstn d l)))).
  { unfold np_sub_f, shift_of_f. rewrite El. replace (Nat.eqb (List.length x) (List.length (firstn d l))) with true by (symmetry; apply Nat.eqb_eq; congruence). reflexivity. }
  assert (ER : load_shift (reals D) d k = Ok (map B2R (firstn d l))). { unfold load_shift. cbn [shift_file reals]. rewrite El. cbn [option_map]. rewrite firstn_map. reflexivity. }
  assert (EW : np_sub (map B2R x) (map B2R (firstn d l)) = Ok (map (fun p => fst p - snd p) (combine (map B2R x) (map B2R (firstn d l))))).
  { unfold np_sub. assert (L1 : List.length (map B2R x) = @List.length f64 x) by apply map_length. assert (L2 : List.length (map B2R (firstn d l)) = @List.length f64 (firstn d l)) by apply map_length.
    replace (Nat.eqb (List.length (map B2R x)) (List.length (map B2R (firstn d l)))) with true by (symmetry; apply Nat.eqb_eq; congruence). reflexivity. }
  exists (times c (map (fun p => fsub (fst p) (snd p)) (combine x (firstn d l)))), (map (Rmult C) (map (fun p => fst p - snd p) (combine (map B2R x) (map B2R (firstn d l))))).
  assert (HP : forall p, In p (combine x (firstn d l)) -> isfin (fst p) = true /\ isfin (snd p) = true /\ Rabs (B2R (fst p)) <= 100 /\ Rabs (B2R (snd p)) <= 100).
  { intros [p q] Hp. cbn [fst snd]. destruct (Hx p (in_combine_l _ _ _ _ Hp)). pose proof (in_combine_r _ _ _ _ Hp) as I.
    assert (I' : In q l) by (rewrite <- (firstn_skipn d l); apply in_or_app; left; exact I). pose proof (Fl q I'). pose proof (Tl q I'). tauto. }
  pose proof u_pos. pose proof u_tiny. destruct Hc as [HC _].
  rewrite times_map, combine_map, !map_map. cbn [fst snd].
  split. { unfold shifted_f. rewrite ES. cbn [rbind]. rewrite EV. cbn [rbind]. rewrite times_map, map_map. reflexivity. }
  split. { unfold shifted. rewrite ER. cbn [rbind]. rewrite EW. cbn [rbind]. rewrite combine_map, !map_map. reflexivity. }
  split. { rewrite map_length, combine_length. lia. }
  split. { intros a Ha. apply in_map_iff in Ha as (p & <- & Hp). destruct (HP p Hp) as (F1 & F2 & B1 & B2). destruct (elem_near c C _ _ Hc F1 F2 B1 B2) as (F & N & B).
    assert (Q : Rabs (B2R (times1 c (fsub (fst p) (snd p)))) <= 201 * C).
    { set (q := B2R (times1 c (fsub (fst p) (snd p)))) in *. set (e := C * (B2R (fst p) - B2R (snd p))) in *.
      replace q with (e + (q - e)) by ring. eapply Rle_trans; [apply Rabs_triang|]. assert (1600 * C * u <= 1600 * C * / 1000000000) by (apply Rmult_le_compat_l; lra). lra. }
    split; [exact F|]. split; [lra|exact Q]. }
  split. { exact (pairs_near c C Hc _ HP). }
  split. { intros a Ha. apply in_map_iff in Ha as (p & <- & Hp). destruct (HP p Hp) as (F1 & F2 & B1 & B2). apply (elem_near c C _ _ Hc F1 F2 B1 B2). }
  split. { eexists. split; [exact ES|]. split; [exact EV|]. rewrite times_map, map_map. reflexivity. }
  eexists. eexists. split; [exact ER|]. split; [exact EW|]. rewrite combine_map, !map_map. reflexivity.
Qed.
Lemma near_le a b z e : a <= b -> lies_near a z e -> lies_near b z e.
Proof. intros H N. induction N; constructor; [lra|assumption]. Qed.
Lemma drift_ge : 1600 * C * u <= drift d C.
Proof.
  unfold drift. pose proof u_pos. destruct Hc as [HC _]. assert (CU : 0 <= C * u) by (apply Rmult_le_pos; lra).
  assert (N : 1 <= INR d) by (apply (le_INR 1); apply d100). assert (1600 * (C * u) <= INR d * (3250 * INR d + 6500) * (C * u)); [|lra]. apply Rmult_le_compat_r; [exact CU|nra].
Qed.
Lemma shifted_follows : follows d (drift d C) (shifted_f D d k c x) (shifted (reals D) d k C (map B2R x)).
Proof.
  destruct shifted_near as (w & y & Ew & Ey & Lw & Fw & N & By & _). exists w, y. destruct Hc as [HC _].
  split; [exact Ew|]. split; [exact Ey|]. split; [exact Lw|]. split; [intros a Ha; apply (Fw a Ha)|].
  split; [exact (near_le _ _ _ _ drift_ge N)|]. intros a Ha. pose proof (By a Ha). lra.
Qed.
Lemma rotated_follows : follows d (drift d C) (rotated_f dot D d k c x) (rotated (reals D) d k C (map B2R x)).
Proof.
  destruct shifted_near as (w & y & _ & _ & Lw & Fw & N & By & (v & E1 & E2 & E3) & (s & v' & G1 & G2 & G3)).
  destruct (HD k Hk) as [_ Hr]. destruct (proj1 (Hr d) Hd) as (l & El & Ll & Fl). destruct (HT k l) as [_ Tl]. specialize (Tl d El).
  set (rows := map (fun i => map (fun j => getf (i * d + j) l) (seq 0 d)) (seq 0 d)).
  assert (EL : load_rot_f D d k = Ok rows). { unfold load_rot_f. rewrite El. replace (Nat.eqb (List.length l) (d * d)) with true by (symmetry; apply Nat.eqb_eq, Ll). reflexivity. }
  assert (GL : load_rot (reals D) d k = Ok (map (map B2R) rows)).
  { unfold load_rot. cbn [rot_file reals]. rewrite El. cbn [option_map]. assert (L1 : List.length (map B2R l) = @List.length f64 l) by apply map_length.
    replace (Nat.eqb (List.length (map B2R l)) (d * d)) with true by (symmetry; apply Nat.eqb_eq; congruence). f_equal. unfold rows. rewrite map_map. apply map_ext. intros i.
    rewrite map_map. apply map_ext. intros j. apply (get_B2R (i * d + j) l). }
  assert (HR : forall r, In r rows -> List.length r = d /\ forall a, In a r -> isfin a = true /\ Rabs (B2R a) <= 4).
  { intros r H. apply in_map_iff in H as (i & <- & Hi). split; [rewrite map_length; apply seq_length|]. intros a Ha. apply in_map_iff in Ha as (j & <- & Hj).
    apply in_seq in Hi, Hj. assert (I : In (getf (i * d + j) l) l) by (apply nth_In; rewrite Ll; nia). split; [apply Fl, I|apply Tl, I]. }
  assert (LR : List.length rows = d) by (unfold rows; rewrite map_length; apply seq_length).
  exists (map (fun r => dot r w) rows), (map (fun r => inner r y) (map (map B2R) rows)).
  assert (Ly : List.length y = d). { rewrite <- (near_length _ _ _ N). assert (L1 : List.length (map B2R w) = @List.length f64 w) by apply map_length. congruence. }
  split. { unfold rotated_f. rewrite E1. cbn [rbind]. rewrite E2. cbn [rbind]. rewrite EL. cbn [rbind]. rewrite E3. unfold np_dot_f.
    rewrite LR, Lw, Nat.eqb_refl. reflexivity. }
  split. { unfold rotated. rewrite G1. cbn [rbind]. rewrite G2. cbn [rbind]. rewrite GL. cbn [rbind]. rewrite G3. unfold np_dot.
    assert (L1 : List.length (map (map B2R) rows) = d) by (rewrite <- LR; apply map_length). rewrite L1, Ly, Nat.eqb_refl. reflexivity. }
  split; [rewrite map_length; exact LR|].
  pose proof u_pos as U. pose proof u_tiny. pose proof eta_u. pose proof eta_pos. destruct Hc as [HC _].
  pose proof (INR_100 d ltac:(apply d100)) as N1. assert (N2 : 1 <= INR d) by (apply (le_INR 1); apply d100).
  assert (Lm : List.length (map B2R w) = d). { rewrite <- Lw. apply map_length. }
  assert (EACH : forall r, In r rows -> isfin (dot r w) = true /\ Rabs (B2R (dot r w) - inner (map B2R r) y) <= drift d C /\ Rabs (inner (map B2R r) y) <= 800000).
  { intros r Hr'. destruct (HR r Hr') as [Lr Br]. destruct (Hdot r w) as [F E]; [congruence|rewrite Lw; apply d100|exact Br|intros a Ha; destruct (Fw a Ha); tauto|].
    rewrite Lw in E. split; [exact F|].
    assert (BR : forall a, In a (map B2R r) -> Rabs a <= 4) by (intros a Ha; apply in_map_iff in Ha as (b & <- & Hb); apply (Br b Hb)).
    assert (Lmr : List.length (map B2R r) = d) by (rewrite <- Lr; apply map_length).
    pose proof (inner_diff (1600 * C * u) (map B2R r) (map B2R w) y ltac:(congruence) BR N) as Df. rewrite Lm in Df.
    pose proof (inner_le (200 * C) (map B2R r) y ltac:(congruence) BR By) as Bi. rewrite Ly in Bi.
    assert (BA : Rabs (inner (map (fun a => Rabs (B2R a)) r) (map (fun a => Rabs (B2R a)) w)) <= 4 * INR d * (201 * C)).
    { assert (L3 : List.length (map (fun a => Rabs (B2R a)) w) = d) by (rewrite <- Lw; apply map_length). assert (L4 : List.length (map (fun a => Rabs (B2R a)) r) = d) by (rewrite <- Lr; apply map_length).
      rewrite <- L3. apply inner_le; [congruence| |].
      - intros a Ha. apply in_map_iff in Ha as (b & <- & Hb). rewrite Rabs_Rabsolu. apply (Br b Hb).
      - intros a Ha. apply in_map_iff in Ha as (b & <- & Hb). rewrite Rabs_Rabsolu. apply (Fw b Hb). }
    pose proof (Rle_abs (inner (map (fun a => Rabs (B2R a)) r) (map (fun a => Rabs (B2R a)) w))) as RA.
    set (n := INR d) in *. split.
    - replace (B2R (dot r w) - inner (map B2R r) y) with ((B2R (dot r w) - inner (map B2R r) (map B2R w)) + (inner (map B2R r) (map B2R w) - inner (map B2R r) y)) by ring.
      eapply Rle_trans; [apply Rabs_triang|]. eapply Rle_trans; [apply Rplus_le_compat; [exact E|exact Df]|]. unfold drift. fold n.
      assert (X1 : 4 * n * u * inner (map (fun a => Rabs (B2R a)) r) (map (fun a => Rabs (B2R a)) w) <= 4 * n * u * (4 * n * (201 * C))) by (apply Rmult_le_compat_l; [apply Rmult_le_pos; lra|lra]).
      assert (CU : 0 <= C * u) by (apply Rmult_le_pos; lra). assert (X2 : eta <= C * u) by nra. assert (X3 : n * eta <= n * (C * u)) by (apply Rmult_le_compat_l; lra).
      assert (0 <= n * (C * u)) by (apply Rmult_le_pos; lra). assert (0 <= n * (n * (C * u))) by (apply Rmult_le_pos; lra). lra.
    - eapply Rle_trans; [exact Bi|]. assert (n * (200 * C) <= 100 * (200 * 10)) by (apply Rmult_le_compat; lra). lra. }
  split. { intros a Ha. apply in_map_iff in Ha as (r & <- & Hr'). apply (EACH r Hr'). }
  split.
  - rewrite map_map. rewrite map_map. unfold lies_near. clear - EACH. induction rows as [|r rs IH]; cbn [map]; [constructor|]. constructor; [apply (EACH r (or_introl eq_refl))|apply IH; intros q Hq; apply EACH; right; exact Hq].
  - intros a Ha. rewrite map_map in Ha. apply in_map_iff in Ha as (r & <- & Hr'). apply (EACH r Hr').
Qed.
End Arg.

(* ---------------- the factors ---------------- *)
Lemma int_near z : (1 <= z <= 1000000)%Z -> isfin (Z2f z) = true /\ B2R (Z2f z) = IZR z /\ 1 <= IZR z.
Proof. intros H. destruct (small_Z z) as [F E]; [lia|]. split; [exact F|]. split; [exact E|]. apply (IZR_le 1). lia. Qed.
Lemma div_near q Q b : isfin q = true -> Rabs (B2R q - Q) <= 2 * u * Q -> (1 <= b <= 1000)%Z -> 1 / 1000 <= Q / IZR b -> Q <= 10000 ->
  isfin (fdiv q (Z2f b)) = true /\ Rabs (B2R (fdiv q (Z2f b)) - Q / IZR b) <= 4 * u * (Q / IZR b).
Proof.
  intros F H Hb L U. destruct (int_near b ltac:(lia)) as (Fb & Eb & B1). pose proof u_pos. pose proof u_tiny. pose proof eta_u. pose proof eta_pos. pose proof huge_2_30.
  assert (IB : 0 < / IZR b <= 1). { split; [apply Rinv_0_lt_compat; lra|]. rewrite <- Rinv_1. apply Rinv_le_contravar; lra. }
  set (i := / IZR b) in *. assert (EQ : forall a, a / IZR b = a * i) by reflexivity. rewrite EQ in *.
  assert (Q0 : 0 < Q) by nra. assert (UQ : u * Q <= / 1000000000 * Q) by (apply Rmult_le_compat_r; lra).
  assert (D : Rabs (B2R q * i - Q * i) <= 2 * u * (Q * i)). { replace (B2R q * i - Q * i) with ((B2R q - Q) * i) by ring. rewrite Rabs_mult, (Rabs_pos_eq i) by lra. rewrite <- Rmult_assoc. apply Rmult_le_compat_r; lra. }
  assert (P : 0 <= u * (Q * i)) by (apply Rmult_le_pos; lra). assert (P2 : u * (Q * i) <= / 1000000000 * (Q * i)) by (apply Rmult_le_compat_r; lra).
  assert (QI : Q * i <= 10000 * 1) by (apply Rmult_le_compat; lra).
  assert (B : Rabs (B2R q * i) <= Q * i * (1 + / 1000000)). { replace (B2R q * i) with (Q * i + (B2R q * i - Q * i)) by ring. eapply Rle_trans; [apply Rabs_triang|]. rewrite (Rabs_pos_eq (Q * i)) by lra. lra. }
  destruct (div_rel q (Z2f b) F) as [Fd (e & t & He & Ht & E)]; [rewrite Eb; lra|rewrite Eb, EQ; lra|]. split; [exact Fd|]. rewrite E, Eb, EQ.
  replace (B2R q * i * (1 + e) + t - Q * i) with ((B2R q * i - Q * i) + B2R q * i * e + t) by ring.
  eapply Rle_trans; [apply Rabs_triang|]. eapply Rle_trans; [apply Rplus_le_compat_r, Rabs_triang|]. rewrite (Rabs_mult (B2R q * i) e).
  assert (Rabs (B2R q * i) * Rabs e <= Q * i * (1 + / 1000000) * u) by (apply Rmult_le_compat; try apply Rabs_pos; assumption).
  assert (eta * 1000000000 <= 1000 * (u * (Q * i))). { assert (u * (1 / 1000) <= u * (Q * i)) by (apply Rmult_le_compat_l; lra). lra. } lra.
Qed.
Lemma quot_near a b : (1 <= a <= 10000)%Z -> (1 <= b <= 1000)%Z -> isfin (quot a b) = true /\ Rabs (B2R (quot a b) - IZR a / IZR b) <= 2 * u * (IZR a / IZR b).
Proof.
  intros Ha Hb. destruct (int_near a ltac:(lia)) as (Fa & Ea & A1). destruct (int_near b ltac:(lia)) as (Fb & Eb & B1). pose proof u_pos. pose proof u_tiny. pose proof eta_u. pose proof eta_pos. pose proof huge_2_30.
  assert (A2 : IZR a <= 10000) by (apply IZR_le; lia). assert (B2 : IZR b <= 1000) by (apply IZR_le; lia).
  assert (IB : / 1000 <= / IZR b <= 1). { split; [apply Rinv_le_contravar; lra|]. rewrite <- Rinv_1. apply Rinv_le_contravar; lra. }
  set (i := / IZR b) in *. assert (EQ : IZR a / IZR b = IZR a * i) by reflexivity. rewrite EQ.
  assert (Q1 : / 1000 <= IZR a * i) by nra. assert (Q2 : IZR a * i <= 10000 * 1) by (apply Rmult_le_compat; lra).
  unfold quot. destruct (div_rel (Z2f a) (Z2f b) Fa) as [Fd (e & t & He & Ht & E)]; [rewrite Eb; lra|rewrite Ea, Eb, EQ, Rabs_pos_eq; lra|]. split; [exact Fd|]. rewrite E, Ea, Eb, EQ.
  replace (IZR a * i * (1 + e) + t - IZR a * i) with (IZR a * i * e + t) by ring. eapply Rle_trans; [apply Rabs_triang|]. rewrite (Rabs_mult (IZR a * i) e), (Rabs_pos_eq (IZR a * i)) by lra.
  assert (IZR a * i * Rabs e <= IZR a * i * u) by (apply Rmult_le_compat_l; lra).
  assert (u * / 1000 <= u * (IZR a * i)) by (apply Rmult_le_compat_l; lra). lra.
Qed.
Lemma factor_1 : factor None 1. Proof. split; [lra|reflexivity]. Qed.
Lemma factor_10 : factor (Some (Z2f 10)) 10.
Proof. split; [lra|]. destruct (int_near 10 ltac:(lia)) as (F & E & _). split; [exact F|]. rewrite E, Rminus_eq_0, Rabs_R0. pose proof u_pos. lra. Qed.
Lemma factor_quot a b : (1 <= a <= 10000)%Z -> (1 <= b <= 1000)%Z -> 1 / 1000 <= IZR a / IZR b <= 10 -> factor (Some (quot a b)) (IZR a / IZR b).
Proof. intros Ha Hb H. split; [exact H|]. destruct (quot_near a b Ha Hb) as [F E]. split; [exact F|]. pose proof u_pos. pose proof (Rmult_le_pos u (IZR a / IZR b) ltac:(lra) ltac:(lra)). lra. Qed.
Lemma factor_quot2 a b : (1 <= a <= 10000)%Z -> (1 <= b <= 1000)%Z -> 1 / 1000 <= IZR a / IZR b / 100 <= 10 -> factor (Some (fdiv (quot a b) (Z2f 100))) (IZR a / IZR b / 100).
Proof.
  intros Ha Hb H. split; [exact H|]. destruct (quot_near a b Ha Hb) as [F E]. apply (div_near (quot a b) (IZR a / IZR b) 100 F E ltac:(lia)); [apply H|lra].
Qed.
Lemma factor_half : factor (Some (fdiv half (Z2f 100))) (5 / 10 / 100).
Proof.
  split; [lra|]. destruct half_R as [F E]. apply (div_near half (5 / 10) 100 F); [|lia|lra|lra]. rewrite E. replace (/ 2 - 5 / 10) with 0 by lra. rewrite Rabs_R0. pose proof u_pos. lra.
Qed.

(* ---------------- adding a constant ---------------- *)
(** Adding a small number to a finite one does not overflow. *)
Lemma no_overflow (v : f64) b : isfin v = true -> 0 <= b <= 2000 -> generic_format radix2 (SpecFloat.fexp 53 1024) b -> Rabs (rnd (B2R v + b)) < big.
Proof.
  intros F [B0 B1] G. pose proof (abs_B2R_lt_emax 53 1024 v) as V. fold big in V.
  assert (GB : generic_format radix2 (SpecFloat.fexp 53 1024) big) by (apply generic_format_bpow; cbn; lia).
  assert (PB : pred radix2 (SpecFloat.fexp 53 1024) big = big - bpow radix2 971) by (unfold big; rewrite pred_bpow; reflexivity).
  assert (GP : generic_format radix2 (SpecFloat.fexp 53 1024) (pred radix2 (SpecFloat.fexp 53 1024) big)) by (apply generic_format_pred; [apply (fexp_correct 53 1024); reflexivity|exact GB]).
  assert (SB : succ radix2 (SpecFloat.fexp 53 1024) (pred radix2 (SpecFloat.fexp 53 1024) big) = big) by (apply succ_pred; [apply (fexp_correct 53 1024); reflexivity|exact GB]).
  assert (H971 : 1000000 <= bpow radix2 971) by (apply Rle_trans with (bpow radix2 30); [cbn; lra|apply bpow_le; lia]).
  assert (Vp : B2R v <= big - bpow radix2 971).
  { rewrite <- PB. apply pred_ge_gt; [apply (fexp_correct 53 1024); reflexivity|apply (generic_format_B2R 53 1024 v)|exact GB|]. apply Rle_lt_trans with (Rabs (B2R v)); [apply Rle_abs|exact V]. }
  apply Rabs_def1.
  - apply Rle_lt_trans with (pred radix2 (SpecFloat.fexp 53 1024) big); [|rewrite PB; lra]. unfold rnd.
    apply round_N_le_midp; [apply (fexp_correct 53 1024); reflexivity|exact GP|]. rewrite SB, PB. lra.
  - apply Rlt_le_trans with (B2R v); [apply Rabs_def2 in V; lra|]. apply B2R_le_rnd. lra.
Qed.
Lemma bias_near b r s k t : (1 <= b <= 2000)%Z -> 0 <= k -> 0 <= t -> computes r s k t -> computes (bias_f b r) (bias (IZR b) s) (2 * k + u) (2 * k * IZR b + 2 * t).
Proof.
  intros Hb Hk Ht (v & w & -> & F & -> & E). destruct (int_near b ltac:(lia)) as (Fb & Eb & B1). assert (B2 : IZR b <= 2000) by (apply IZR_le; lia).
  assert (O : Rabs (rnd (B2R v + IZR b)) < big). { apply no_overflow; [exact F|lra|]. rewrite <- Eb. apply (generic_format_B2R 53 1024). }
  destruct (fadd_fin v (Z2f b) F Fb) as [Fa Ea]; [rewrite Eb; exact O|].
  destruct (FLT_plus_error_N_ex radix2 (3 - 1024 - 53) 53 (fun n => negb (Z.even n)) (B2R v) (B2R (Z2f b)) (generic_format_B2R 53 1024 v) (generic_format_B2R 53 1024 (Z2f b))) as (e & He & Hr).
  exists (fadd v (Z2f b)), (w + IZR b). split; [reflexivity|]. split; [exact Fa|]. split; [reflexivity|].
  assert (U : Rabs e <= u). { rewrite u_ro_value in He. eapply Rle_trans; [exact He|]. pose proof u_pos. apply (Rmult_le_reg_r (1 + u)); [lra|]. unfold Rdiv. rewrite Rmult_assoc, Rinv_l by lra. pose proof (Rmult_le_pos u u ltac:(lra) ltac:(lra)). lra. }
  rewrite Ea. unfold rnd in *. rewrite Eb in *. change (round radix2 (SpecFloat.fexp 53 1024) (round_mode mode_NE) (B2R v + IZR b)) with (round radix2 (FLT_exp (3 - 1024 - 53) 53) (Znearest (fun n => negb (Z.even n))) (B2R v + IZR b)).
  rewrite Hr. pose proof u_pos. pose proof u_tiny.
  assert (W : Rabs w <= Rabs (w + IZR b) + IZR b). { replace w with ((w + IZR b) + - IZR b) at 1 by ring. eapply Rle_trans; [apply Rabs_triang|]. rewrite Rabs_Ropp, (Rabs_pos_eq (IZR b)) by lra. lra. }
  replace ((B2R v + IZR b) * (1 + e) - (w + IZR b)) with ((B2R v - w) + ((w + IZR b) * e + (B2R v - w) * e)) by ring.
  eapply Rle_trans; [apply Rabs_triang|]. eapply Rle_trans; [apply Rplus_le_compat_l, Rabs_triang|]. rewrite !Rabs_mult.
  pose proof (Rabs_pos w). pose proof (Rabs_pos (w + IZR b)). pose proof (Rabs_pos (B2R v - w)).
  assert (Rabs (w + IZR b) * Rabs e <= Rabs (w + IZR b) * u) by (apply Rmult_le_compat_l; lra).
  assert (Rabs (B2R v - w) * Rabs e <= Rabs (B2R v - w) * 1) by (apply Rmult_le_compat_l; lra).
  assert (k * Rabs w <= k * (Rabs (w + IZR b) + IZR b)) by (apply Rmult_le_compat_l; lra). lra.
Qed.

(* ---------------- the functions ---------------- *)
(** The value computed is near the value of the function at a point near the exact argument. *)
Definition reaches (delta : R) (r : res f64) (arg : res (list R)) (f : list R -> res R) (k t : R) : Prop :=
  exists e z, arg = Ok e /\ lies_near delta z e /\ computes r (f z) k t.
(** The exact argument is in the box, with some room for its error. *)
Definition calm (arg : res (list R)) : Prop := forall e a, arg = Ok e -> In a e -> Rabs a <= 98.

Lemma follows_in d delta z e B : List.length z = d -> (forall a, In a z -> isfin a = true) -> lies_near delta (map B2R z) e -> (forall a, In a e -> Rabs a <= B) -> inside d (B + delta) z.
Proof.
  intros L F N H. split; [lia|]. intros i Hi. assert (I : In (getf i z) z) by (apply nth_In; lia). split; [apply F, I|]. clear F.
  unfold lies_near in N. rewrite <- L in Hi. clear L. revert e N H i Hi I. induction z as [|a z IH]; intros e N H i Hi I; [cbn in Hi; lia|].
  inversion N as [|? b ? e' N0 N1]; subst. destruct i as [|i].
  - change (getf 0 (a :: z)) with a in *. replace (B2R a) with (b + (B2R a - b)) by ring. eapply Rle_trans; [apply Rabs_triang|]. apply Rplus_le_compat; [apply H; left; reflexivity|exact N0].
  - change (getf (S i) (a :: z)) with (getf i z) in *. apply (IH e' N1); [intros c Hc; apply H; right; exact Hc|cbn in Hi; lia|]. apply nth_In. cbn in Hi. lia.
Qed.
Lemma drift_small d C : (d <= 100)%nat -> 0 <= C <= 10 -> 0 <= drift d C <= / 2.
Proof.
  intros Hd HC. pose proof (INR_100 d Hd) as N. unfold drift. pose proof u_pos. pose proof u_tiny as U.
  assert (U' : u <= / 1000000000000) by (apply Rle_trans with (bpow radix2 (-40)); [unfold u; apply bpow_le; lia|cbn; lra]).
  split; [repeat apply Rmult_le_pos; lra|].
  assert (INR d * (3250 * INR d + 6500) <= 100 * (331500)) by (apply Rmult_le_compat; lra). assert (0 <= INR d * (3250 * INR d + 6500)) by (apply Rmult_le_pos; lra).
  assert (INR d * (3250 * INR d + 6500) * C <= 100 * 331500 * 10) by (apply Rmult_le_compat; lra). assert (0 <= INR d * (3250 * INR d + 6500) * C) by (apply Rmult_le_pos; lra).
  assert (INR d * (3250 * INR d + 6500) * C * u <= 100 * 331500 * 10 * / 1000000000000) by (apply Rmult_le_compat; lra). lra.
Qed.
(** The functions reached through an argument. *)
Lemma through d C r s (f : list f64 -> res f64) (g : list R -> res R) B b k t : (1 <= d <= 100)%nat -> factor C B -> follows d (drift d B) r s ->
  (1 <= b <= 2000)%Z -> 0 <= k -> 0 <= t ->
  (forall z, List.length z = d -> inside d wide z -> (calm s -> inside d 100 z) -> computes (f z) (g (map B2R z)) k t) ->
  reaches (drift d B) (z <-? r ; bias_f b (f z)) s (fun z => bias (IZR b) (g z)) (2 * k + u) (2 * k * IZR b + 2 * t).
Proof.
  intros Hd [HB _] (z & e & -> & -> & L & F & N & He) Hb Hk Ht H. exists e, (map B2R z). split; [reflexivity|]. split; [exact N|]. cbn [rbind].
  apply bias_near; try assumption. pose proof (drift_small d B ltac:(lia) ltac:(lra)) as DS.
  assert (W : 1000000 <= wide) by (unfold wide; apply Rle_trans with (bpow radix2 30); [cbn; lra|apply bpow_le; lia]).
  assert (M : forall (P Q : R), P <= Q -> inside d P z -> inside d Q z). { intros P Q PQ [I1 I2]. split; [exact I1|]. intros i Hi. destruct (I2 i Hi). split; [assumption|lra]. }
  apply H; [exact L| |].
  - apply (M (800000 + drift d B)); [lra|]. exact (follows_in _ _ _ _ _ L F N He).
  - intros K. apply (M (98 + drift d B)); [lra|]. apply (follows_in _ _ _ _ _ L F N). intros a Ha. exact (K e a eq_refl Ha).
Qed.

Lemma plus1_near delta z : 100 * u <= delta <= / 2 -> (forall a, In a z -> isfin a = true) -> forall e, lies_near delta (map B2R z) e -> (forall a, In a e -> Rabs a <= 98) ->
  (forall a, In a (plus1_f z) -> isfin a = true) /\ lies_near (2 * delta) (map B2R (plus1_f z)) (plus1 e).
Proof.
  intros Hd F e N He. unfold plus1_f, plus1. split.
  - intros v Hv. apply in_map_iff in Hv as (a & <- & Ha). 
    assert (B : Rabs (B2R a) <= 99). { unfold lies_near in N. assert (I : In (B2R a) (map B2R z)) by (apply in_map, Ha). clear Ha F. induction N as [|p q ps qs N0 N1 IH]; [destruct I|].
      destruct I as [<-|I]; [|apply IH; [intros b Hb; apply He; right; exact Hb|exact I]]. replace p with (q + (p - q)) by ring. eapply Rle_trans; [apply Rabs_triang|]. pose proof (He q (or_introl eq_refl)). lra. }
    pose proof huge_2_30. pose proof fone_R as R1. apply (add_rel a fone (F a Ha) fone_fin). rewrite R1. eapply Rle_trans; [apply Rabs_triang|]. rewrite Rabs_R1. lra.
  - revert e N He F. unfold lies_near. induction z as [|a z IH]; intros e N He F.
    + inversion N; subst. constructor.
    + inversion N as [|? b ? e' N0 N1]; subst. cbn [map]. constructor; [|apply IH; [exact N1|intros c Hc; apply He; right; exact Hc|intros c Hc; apply F; right; exact Hc]].
      pose proof (He b (or_introl eq_refl)) as Bb. pose proof huge_2_30. pose proof fone_R as R1.
      assert (B : Rabs (B2R a + 1) <= 100). { replace (B2R a + 1) with (b + (B2R a - b) + 1) by ring. eapply Rle_trans; [apply Rabs_triang|]. rewrite Rabs_R1. eapply Rle_trans; [apply Rplus_le_compat_r, Rabs_triang|]. lra. }
      destruct (add_rel a fone (F a (or_introl eq_refl)) fone_fin) as [_ (g & Hg & E)]; [rewrite R1; lra|]. rewrite E, R1.
      replace ((B2R a + 1) * (1 + g) - (b + 1)) with ((B2R a - b) + (B2R a + 1) * g) by ring. eapply Rle_trans; [apply Rabs_triang|]. rewrite Rabs_mult.
      assert (Rabs (B2R a + 1) * Rabs g <= 100 * u) by (apply Rmult_le_compat; try apply Rabs_pos; assumption). lra.
Qed.
Lemma through1 d C r s (f : list f64 -> res f64) (g : list R -> res R) B b k t : (1 <= d <= 100)%nat -> factor C B -> 100 * u <= drift d B -> follows d (drift d B) r s -> calm s ->
  (1 <= b <= 2000)%Z -> 0 <= k -> 0 <= t ->
  (forall z, List.length z = d -> inside d 100 z -> computes (f z) (g (map B2R z)) k t) ->
  reaches (2 * drift d B) (z <-? r ; bias_f b (f (plus1_f z))) (rmap plus1 s) (fun z => bias (IZR b) (g z)) (2 * k + u) (2 * k * IZR b + 2 * t).
Proof.
  intros Hd [HB _] HD (z & e & -> & -> & L & F & N & He) K Hb Hk Ht H. pose proof (drift_small d B ltac:(lia) ltac:(lra)) as DS.
  destruct (plus1_near (drift d B) z ltac:(lra) F e N (fun a Ha => K e a eq_refl Ha)) as [F' N'].
  exists (plus1 e), (map B2R (plus1_f z)). split; [reflexivity|]. split; [exact N'|]. cbn [rbind].
  apply bias_near; try assumption.
  assert (L' : List.length (plus1_f z) = d) by (unfold plus1_f; rewrite map_length; exact L).
  apply H; [exact L'|].
  destruct (follows_in d (2 * drift d B) (plus1_f z) (plus1 e) 99 L' F' N') as [I1 I2].
  - intros a Ha. apply in_map_iff in Ha as (b' & <- & Hb'). eapply Rle_trans; [apply Rabs_triang|]. rewrite Rabs_R1. pose proof (K e b' eq_refl Hb'). lra.
  - split; [exact I1|]. intros i Hi. destruct (I2 i Hi). split; [assumption|lra].
Qed.
Lemma drift_100 d C : (2 <= d)%nat -> 2 / 100 <= C -> 100 * u <= drift d C.
Proof.
  intros Hd HC. pose proof u_pos. unfold drift. apply Rmult_le_compat_r; [lra|]. assert (2 <= INR d) by (apply (le_INR 2), Hd).
  assert (2 * 13000 <= INR d * (3250 * INR d + 6500)) by (apply Rmult_le_compat; lra).
  assert (2 * 13000 * (2 / 100) <= INR d * (3250 * INR d + 6500) * C) by (apply Rmult_le_compat; lra). lra.
Qed.
Lemma reaches_le delta r arg f k k' t t' : k <= k' -> t <= t' -> reaches delta r arg f k t -> reaches delta r arg f k' t'.
Proof.
  intros Hk Ht (e & z & E & N & v & w & H1 & H2 & H3 & H4). exists e, z. split; [exact E|]. split; [exact N|]. exists v, w. repeat (split; [assumption|]).
  pose proof (Rabs_pos w). assert (k * Rabs w <= k' * Rabs w) by (apply Rmult_le_compat_r; lra). lra.
Qed.

Section Table.
Variables (eps : R) (m : libm) (dot : list f64 -> list f64 -> f64) (D : data_f) (d : nat) (x : list f64).
Hypothesis (least : u <= eps) (most : eps <= / 2 ^ 20) (library : accurate eps m).
Hypothesis (product : dot_near dot) (files : shipped_f D) (moderate : tame D).
Hypothesis dimension : In d [10; 20; 30; 50; 100]%nat.
Hypothesis (size : List.length x = d) (numbers : forall a, In a x -> isfin a = true /\ Rabs (B2R a) <= 100).
Let Hd : In d [2; 10; 20; 30; 50; 100]%nat. Proof. right. exact dimension. Qed.
Let d1 : (1 <= d <= 100)%nat. Proof. cbn in dimension. lia. Qed.
Let d2 : (2 <= d)%nat. Proof. cbn in dimension. lia. Qed.
Let fol k c C : (1 <= k <= 16)%nat -> factor c C -> follows d (drift d C) (rotated_f dot D d k c x) (rotated (reals D) d k C (map B2R x)).
Proof. intros Hk Hc. apply rotated_follows; assumption. Qed.
Let fos k c C : (1 <= k <= 16)%nat -> factor c C -> follows d (drift d C) (shifted_f D d k c x) (shifted (reals D) d k C (map B2R x)).
Proof. intros Hk Hc. apply shifted_follows; assumption. Qed.
Let e0 : 0 < eps. Proof. pose proof u_pos. lra. Qed.
Let n0 : 1 <= INR d. Proof. apply (le_INR 1). apply d1. Qed.
Let s0 : 0 <= speck. Proof. apply Rlt_le, bpow_gt_0. Qed.

Lemma cec_squares :
  reaches (drift d 1) (cec14_f m dot D d 1 x) (rotated (reals D) d 1 1 (map B2R x)) (fun z => bias 100 (elliptic z)) ((8 * INR d + 137) * eps) ((800 * INR d + 13600) * eps + 2 * speck) /\
  reaches (drift d 1) (cec14_f m dot D d 2 x) (rotated (reals D) d 2 1 (map B2R x)) (fun z => bias 200 (bent_cigar d z)) ((8 * INR d + 11) * eps) ((1600 * INR d + 2000) * eps + 2 * speck) /\
  reaches (drift d 1) (cec14_f m dot D d 3 x) (rotated (reals D) d 3 1 (map B2R x)) (fun z => bias 300 (discus d z)) ((8 * INR d + 7) * eps) ((2400 * INR d + 1800) * eps + 2 * speck) /\
  reaches (drift d (600 / 100)) (cec14_f m dot D d 7 x) (rotated (reals D) d 7 (600 / 100) (map B2R x)) (fun z => bias 700 (griewank d z)) ((8 * INR d + 15) * eps) ((5600 * INR d + 9800) * eps + 2 * speck).
Proof.
  assert (NE : 0 <= INR d * eps) by (apply Rmult_le_pos; lra).
  split; [|split; [|split]].
  - apply (reaches_le _ _ _ _ (2 * ((4 * INR d + 68) * eps) + u) _ (2 * ((4 * INR d + 68) * eps) * 100 + 2 * speck)); [lra|lra|].
    apply (through d None _ _ (elliptic_f m) elliptic 1 100 _ _ d1 factor_1 (fol 1 None 1 ltac:(lia) factor_1) ltac:(lia)); [apply Rmult_le_pos; lra|exact s0|].
    intros z L I _. destruct (near_squares eps m d z least most library d1 I) as (_ & _ & _ & H). exact (H L d2).
  - apply (reaches_le _ _ _ _ (2 * ((4 * INR d + 5) * eps) + u) _ (2 * ((4 * INR d + 5) * eps) * 200 + 2 * speck)); [lra|lra|].
    apply (through d None _ _ (bent_cigar_f m d) (bent_cigar d) 1 200 _ _ d1 factor_1 (fol 2 None 1 ltac:(lia) factor_1) ltac:(lia)); [apply Rmult_le_pos; lra|exact s0|].
    intros z L I _. apply (near_squares eps m d z least most library d1 I).
  - apply (reaches_le _ _ _ _ (2 * ((4 * INR d + 3) * eps) + u) _ (2 * ((4 * INR d + 3) * eps) * 300 + 2 * speck)); [lra|lra|].
    apply (through d None _ _ (discus_f m d) (discus d) 1 300 _ _ d1 factor_1 (fol 3 None 1 ltac:(lia) factor_1) ltac:(lia)); [apply Rmult_le_pos; lra|exact s0|].
    intros z L I _. apply (near_squares eps m d z least most library d1 I).
  - apply (reaches_le _ _ _ _ (2 * ((4 * INR d + 7) * eps) + u) _ (2 * ((4 * INR d + 7) * eps) * 700 + 2 * speck)); [lra|lra|].
    assert (FQ := factor_quot 600 100 ltac:(lia) ltac:(lia) ltac:(lra)).
    apply (through d _ _ _ (griewank_f m d) (griewank d) (600 / 100) 700 _ _ d1 FQ (fol 7 _ _ ltac:(lia) FQ) ltac:(lia)); [apply Rmult_le_pos; lra|exact s0|].
    intros z L I _. apply (near_squares eps m d z least most library d1 I).
Qed.

Let F4 : factor (Some (fdiv (quot 2048 1000) (Z2f 100))) (2048 / 1000 / 100). Proof. apply (factor_quot2 2048 1000); [lia|lia|lra]. Qed.
Let F8 : factor (Some (fdiv (quot 512 100) (Z2f 100))) (512 / 100 / 100). Proof. apply (factor_quot2 512 100); [lia|lia|lra]. Qed.
Let F12 : factor (Some (quot 5 100)) (5 / 100). Proof. apply (factor_quot 5 100); [lia|lia|lra]. Qed.
Lemma calm_8 : calm (shifted (reals D) d 8 (512 / 100 / 100) (map B2R x)).
Proof.
  intros e a E Ha. destruct (shifted_near D d 8 _ _ x files moderate Hd ltac:(lia) F8 size numbers) as (w & y & _ & Ey & _ & _ & _ & By & _).
  rewrite E in Ey. injection Ey as ->. pose proof (By a Ha). lra.
Qed.
Lemma cec_box :
  (calm (rotated (reals D) d 4 (2048 / 1000 / 100) (map B2R x)) ->
   reaches (2 * drift d (2048 / 1000 / 100)) (cec14_f m dot D d 4 x) (rmap plus1 (rotated (reals D) d 4 (2048 / 1000 / 100) (map B2R x))) (fun z => bias 400 (rosenbrock d z)) u (2 * (INR d * (93000000000 + 21000000000 * INR d) * eps))) /\
  (calm (rotated (reals D) d 5 1 (map B2R x)) ->
   reaches (drift d 1) (cec14_f m dot D d 5 x) (rotated (reals D) d 5 1 (map B2R x)) (fun z => bias 800 (ackley d z)) u (2 * ((15000 + 1700 * INR d) * eps))) /\
  (calm (rotated (reals D) d 6 (5 / 10 / 100) (map B2R x)) ->
   reaches (drift d (5 / 10 / 100)) (cec14_f m dot D d 6 x) (rotated (reals D) d 6 (5 / 10 / 100) (map B2R x)) (fun z => bias 600 (ackley d z)) u (2 * ((15000 + 1700 * INR d) * eps))) /\
  reaches (drift d (512 / 100 / 100)) (cec14_f m dot D d 8 x) (shifted (reals D) d 8 (512 / 100 / 100) (map B2R x)) (fun z => bias 800 (Ok (rastrigin z))) u (2 * (INR d * (72000 + 21000 * INR d) * eps)) /\
  (calm (rotated (reals D) d 9 (512 / 100 / 100) (map B2R x)) ->
   reaches (drift d (512 / 100 / 100)) (cec14_f m dot D d 9 x) (rotated (reals D) d 9 (512 / 100 / 100) (map B2R x)) (fun z => bias 900 (Ok (rastrigin z))) u (2 * (INR d * (72000 + 21000 * INR d) * eps))) /\
  (calm (rotated (reals D) d 16 1 (map B2R x)) ->
   reaches (2 * drift d 1) (cec14_f m dot D d 16 x) (rmap plus1 (rotated (reals D) d 16 1 (map B2R x))) (fun z => bias 1600 (expanded_scaffer d z)) u (2 * (INR d * (1520 + 5 * INR d) * eps))).
Proof.
  assert (BX := fun z I => near_box eps m d z least most library d1 I). pose proof u_pos.
  assert (P : forall a b, 0 <= a -> 0 <= b -> 0 <= INR d * (a + b * INR d) * eps). { intros a b Ha Hb. apply Rmult_le_pos; [|lra]. apply Rmult_le_pos; [lra|]. apply Rplus_le_le_0_compat; [lra|]. apply Rmult_le_pos; lra. }
  assert (P' : 0 <= (15000 + 1700 * INR d) * eps) by (apply Rmult_le_pos; lra).
  split; [|split; [|split; [|split; [|split]]]].
  - intros K. apply (reaches_le _ _ _ _ (2 * 0 + u) _ (2 * 0 * 400 + 2 * (INR d * (93000000000 + 21000000000 * INR d) * eps))); [lra|lra|].
    apply (through1 d _ _ _ (rosenbrock_f m d) (rosenbrock d) _ 400 _ _ d1 F4 (drift_100 d (2048 / 1000 / 100) d2 ltac:(lra)) (fol 4 _ _ ltac:(lia) F4) K ltac:(lia)); [lra|apply P; lra|]. intros z L I. apply (BX z I).
  - intros K. apply (reaches_le _ _ _ _ (2 * 0 + u) _ (2 * 0 * 800 + 2 * ((15000 + 1700 * INR d) * eps))); [lra|lra|].
    apply (through d _ _ _ (ackley_f m d) (ackley d) _ 800 _ _ d1 factor_1 (fol 5 _ _ ltac:(lia) factor_1) ltac:(lia)); [lra|exact P'|]. intros z L _ I. apply (BX z (I K)).
  - intros K. apply (reaches_le _ _ _ _ (2 * 0 + u) _ (2 * 0 * 600 + 2 * ((15000 + 1700 * INR d) * eps))); [lra|lra|].
    apply (through d _ _ _ (ackley_f m d) (ackley d) _ 600 _ _ d1 factor_half (fol 6 _ _ ltac:(lia) factor_half) ltac:(lia)); [lra|exact P'|]. intros z L _ I. apply (BX z (I K)).
  - apply (reaches_le _ _ _ _ (2 * 0 + u) _ (2 * 0 * 800 + 2 * (INR d * (72000 + 21000 * INR d) * eps))); [lra|lra|].
    apply (through d _ _ _ (fun z => Ok (rastrigin_f m z)) (fun z => Ok (rastrigin z)) _ 800 _ _ d1 F8 (fos 8 _ _ ltac:(lia) F8) ltac:(lia)); [lra|apply P; lra|]. intros z L _ I. apply (BX z (I calm_8)), L.
  - intros K. apply (reaches_le _ _ _ _ (2 * 0 + u) _ (2 * 0 * 900 + 2 * (INR d * (72000 + 21000 * INR d) * eps))); [lra|lra|].
    apply (through d _ _ _ (fun z => Ok (rastrigin_f m z)) (fun z => Ok (rastrigin z)) _ 900 _ _ d1 F8 (fol 9 _ _ ltac:(lia) F8) ltac:(lia)); [lra|apply P; lra|]. intros z L _ I. apply (BX z (I K)), L.
  - intros K. apply (reaches_le _ _ _ _ (2 * 0 + u) _ (2 * 0 * 1600 + 2 * (INR d * (1520 + 5 * INR d) * eps))); [lra|lra|].
    apply (through1 d _ _ _ (expanded_scaffer_f m d) (expanded_scaffer d) _ 1600 _ _ d1 factor_1 (drift_100 d 1 d2 ltac:(lra)) (fol 16 _ _ ltac:(lia) factor_1) K ltac:(lia)); [lra|apply P; lra|]. intros z L I. apply (BX z I).
Qed.
Lemma cec_rest :
  (calm (shifted (reals D) d 10 10 (map B2R x)) ->
   reaches (drift d 10) (cec14_f m dot D d 10 x) (shifted (reals D) d 10 10 (map B2R x)) (fun z => bias 1000 (Ok (mod_schwefel z))) u (2 * (INR d * (43000 + 1900 * INR d) * eps))) /\
  (calm (rotated (reals D) d 11 10 (map B2R x)) ->
   reaches (drift d 10) (cec14_f m dot D d 11 x) (rotated (reals D) d 11 10 (map B2R x)) (fun z => bias 1100 (Ok (mod_schwefel z))) u (2 * (INR d * (43000 + 1900 * INR d) * eps))) /\
  (calm (rotated (reals D) d 12 (5 / 100) (map B2R x)) ->
   reaches (drift d (5 / 100)) (cec14_f m dot D d 12 x) (rotated (reals D) d 12 (5 / 100) (map B2R x)) (fun z => bias 1200 (katsuura d z)) (56001 * eps) (68000000 * eps)) /\
  (calm (rotated (reals D) d 13 (5 / 100) (map B2R x)) ->
   reaches (drift d (5 / 100)) (cec14_f m dot D d 13 x) (rotated (reals D) d 13 (5 / 100) (map B2R x)) (fun z => bias 1300 (happycat d z)) u
     (2 * (sqrt (sqrt (INR d * (41000 + 21000 * INR d) * eps)) + (42000 + 11000 * INR d) * eps))) /\
  (calm (rotated (reals D) d 14 (5 / 100) (map B2R x)) ->
   reaches (drift d (5 / 100)) (cec14_f m dot D d 14 x) (rotated (reals D) d 14 (5 / 100) (map B2R x)) (fun z => bias 1400 (hgbat d z)) u
     (2 * (sqrt (INR d * INR d * (810000000 + 410000000 * INR d) * eps) + (110000 + 42000 * INR d) * eps))).
Proof.
  pose proof u_pos.
  assert (P' : 0 <= INR d * (43000 + 1900 * INR d) * eps) by (apply Rmult_le_pos; [apply Rmult_le_pos; lra|lra]).
  assert (Q : 10 / INR d ^ 2 <= 10 /\ 0 <= 10 / INR d ^ 2).
  { assert (1 <= INR d ^ 2) by nra. unfold Rdiv. assert (0 < / INR d ^ 2 <= 1); [|lra]. split; [apply Rinv_0_lt_compat; lra|]. rewrite <- Rinv_1. apply Rinv_le_contravar; lra. }
  split; [|split; [|split; [|split]]].
  - intros K. apply (reaches_le _ _ _ _ (2 * 0 + u) _ (2 * 0 * 1000 + 2 * (INR d * (43000 + 1900 * INR d) * eps))); [lra|lra|].
    apply (through d _ _ _ (mod_schwefel_f m) (fun z => Ok (mod_schwefel z)) _ 1000 _ _ d1 factor_10 (fos 10 _ _ ltac:(lia) factor_10) ltac:(lia)); [lra|exact P'|].
    intros z L _ I. apply (near_waves eps m d z least most library d1 (I K)), L.
  - intros K. apply (reaches_le _ _ _ _ (2 * 0 + u) _ (2 * 0 * 1100 + 2 * (INR d * (43000 + 1900 * INR d) * eps))); [lra|lra|].
    apply (through d _ _ _ (mod_schwefel_f m) (fun z => Ok (mod_schwefel z)) _ 1100 _ _ d1 factor_10 (fol 11 _ _ ltac:(lia) factor_10) ltac:(lia)); [lra|exact P'|].
    intros z L _ I. apply (near_waves eps m d z least most library d1 (I K)), L.
  - intros K. apply (reaches_le _ _ _ _ (2 * (28000 * eps) + u) _ (2 * (28000 * eps) * 1200 + 2 * (28000 * (10 / INR d ^ 2) * eps))); [lra| |].
    { assert (10 / INR d ^ 2 * eps <= 10 * eps) by (apply Rmult_le_compat_r; lra). lra. }
    apply (through d _ _ _ (katsuura_f m d) (katsuura d) _ 1200 _ _ d1 F12 (fol 12 _ _ ltac:(lia) F12) ltac:(lia)); [lra| |].
    + apply Rmult_le_pos; lra.
    + intros z L _ I. apply (near_box eps m d z least most library d1 (I K)).
  - intros K. apply (reaches_le _ _ _ _ (2 * 0 + u) _ (2 * 0 * 1300 + 2 * (sqrt (sqrt (INR d * (41000 + 21000 * INR d) * eps)) + (42000 + 11000 * INR d) * eps))); [lra|lra|].
    apply (through d _ _ _ (happycat_f m d) (happycat d) _ 1300 _ _ d1 F12 (fol 13 _ _ ltac:(lia) F12) ltac:(lia)); [lra| |].
    + apply Rplus_le_le_0_compat; [apply sqrt_pos|]. apply Rmult_le_pos; lra.
    + intros z L _ I. apply (near_roots eps m d z least most library d1 (I K)).
  - intros K. apply (reaches_le _ _ _ _ (2 * 0 + u) _ (2 * 0 * 1400 + 2 * (sqrt (INR d * INR d * (810000000 + 410000000 * INR d) * eps) + (110000 + 42000 * INR d) * eps))); [lra|lra|].
    apply (through d _ _ _ (hgbat_f m d) (hgbat d) _ 1400 _ _ d1 F12 (fol 14 _ _ ltac:(lia) F12) ltac:(lia)); [lra| |].
    + apply Rplus_le_le_0_compat; [apply sqrt_pos|]. apply Rmult_le_pos; lra.
    + intros z L _ I. apply (near_roots eps m d z least most library d1 (I K)).
Qed.
End Table.

(* ---------------- examples ---------------- *)
Lemma ones_tame : tame ones_data.
Proof.
  intros k l. pose proof fone_R as R1. split; cbn [ones_data shift_nums rot_nums].
  - intros E v Hv. assert (E' : l = repeat fone 100) by congruence. rewrite E' in Hv. rewrite (repeat_spec _ _ _ Hv). rewrite R1, Rabs_R1. lra.
  - intros d E v Hv. destruct (existsb _ _); [|discriminate]. assert (E' : l = repeat fone (d * d)) by congruence. rewrite E' in Hv. rewrite (repeat_spec _ _ _ Hv). rewrite R1, Rabs_R1. lra.
Qed.
Lemma dot_left_near : dot_near dot_left.
Proof. exact (dot_any (fun l => fold_left fadd l fzero) seq_adds). Qed.
(** At the shift the exact argument is zero. *)
Lemma calm_shift D d k C x : x = shift_of_f D d k -> calm (rotated (reals D) d k C (map B2R x)) /\ calm (shifted (reals D) d k C (map B2R x)).
Proof.
  intros ->. unfold calm, rotated, shifted, load_shift, shift_of_f. cbn [shift_file reals]. destruct (shift_nums D k) as [l|]; [|split; intros e a E; discriminate]. cbn [option_map rbind].
  rewrite firstn_map. unfold np_sub. rewrite Nat.eqb_refl. cbn [rbind].
  assert (Z : forall s : list R, map (Rmult C) (map (fun p => fst p - snd p) (combine s s)) = map (fun _ => 0) s).
  { induction s as [|v s IH]; [reflexivity|]. cbn. rewrite IH. f_equal. ring. }
  rewrite Z. assert (ZI : forall r (s : list R), inner r (map (fun _ => 0) s) = 0).
  { induction r as [|v r IH]; intros [|w s]; try reflexivity. cbn [map]. rewrite inner_cons, IH. ring. }
  split; intros e a E Ha.
  - destruct (load_rot _ d k) as [rows|]; [|discriminate]. cbn [rbind] in E. unfold np_dot in E. destruct (Nat.eqb _ _); [|discriminate]. injection E as <-.
    apply in_map_iff in Ha as (r & <- & _). change (Rabs (inner r (map (fun _ => 0) (map B2R (firstn d l)))) <= 98). rewrite ZI, Rabs_R0. lra.
  - injection E as <-. apply in_map_iff in Ha as (r & <- & _). rewrite Rabs_R0. lra.
Qed.
