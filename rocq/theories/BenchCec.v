(** Bent cigar, Griewank and Weierstrass against their definitions; the shifted and rotated
    functions. *)
From Coq Require Import List ZArith Bool Lia Reals Lra.
From Flocq Require Import Core.
From Verif Require Import PyBase Bench BenchThms.
Import ListNotations.
Open Scope R_scope.

Fixpoint rprod (l : list R) : R := match l with [] => 1 | a :: l' => a * rprod l' end.

(** ** Bent cigar *)
Definition bent_cigar_textbook (d : nat) (x : list R) : R := get 0 x ^ 2 + 10 ^ 6 * rsum (map (fun i => get i x ^ 2) (range 1 d)).
Lemma bent_value d x : (1 <= d)%nat -> length x = d -> bent_cigar d x = Ok ((1 + 10 ^ 6) * rsum (map (fun i => get i x ^ 2) (range 0 d))).
Proof.
  intros Hd HL. unfold bent_cigar. rewrite (reads_ok _ _ _ HL). f_equal. rewrite add_up_rsum, (range_split (fun i => get i x ^ 2) d Hd). ring.
Qed.
Theorem bent_min d : (1 <= d)%nat -> minimum d (bent_cigar d) (all_equal d 0).
Proof.
  intros Hd x HL. rewrite (bent_value d x Hd HL). eexists. split; [reflexivity|]. set (S := rsum _).
  assert (HS : 0 <= S) by (apply sum_nonneg; intros; apply sq_nonneg). split; [nra|]. rewrite (all_equal_iff d 0 x HL). transitivity (S = 0); [split; nra|].
  unfold S. rewrite (sum_zero (fun i => get i x ^ 2) _ (fun _ _ => sq_nonneg _)). split.
  - intros H i Hi. apply sq_zero, H, in_range. lia.
  - intros H i Hi. apply in_range in Hi. rewrite (H i) by lia. ring.
Qed.
Theorem bent_exactly d x : (1 <= d)%nat -> length x = d -> exists v, bent_cigar d x = Ok v /\ (v = bent_cigar_textbook d x <-> all_equal d 0 x).
Proof.
  intros Hd HL. rewrite (bent_value d x Hd HL). eexists. split; [reflexivity|]. unfold bent_cigar_textbook. rewrite (range_split (fun i => get i x ^ 2) d Hd).
  set (S := rsum (map (fun i => get i x ^ 2) (range 1 d))). assert (HS : 0 <= S) by (apply sum_nonneg; intros; apply sq_nonneg). pose proof (sq_nonneg (get 0 x)) as H0.
  rewrite (all_equal_iff d 0 x HL). split.
  - intros E i Hi. assert (E0 : get 0 x ^ 2 = 0) by nra. assert (ES : S = 0) by nra. destruct i; [apply sq_zero; exact E0|].
    apply sq_zero. apply (proj1 (sum_zero (fun i => get i x ^ 2) (range 1 d) (fun _ _ => sq_nonneg _)) ES). apply in_range. lia.
  - intros H. assert (ES : S = 0) by (apply sum_zero; [intros; apply sq_nonneg|]; intros i Hi; apply in_range in Hi; rewrite (H i) by lia; ring). rewrite ES, (H 0%nat) by lia. ring.
Qed.

(** ** Griewank *)
Definition griewank_textbook (d : nat) (x : list R) : R :=
  rsum (map (fun i => get i x ^ 2 / 4000) (range 0 d)) - rprod (map (fun i => cos (get (i - 1) x / sqrt (INR i))) (range 1 (d + 1))) + 1.
Lemma zero_product (f : nat -> R) l : fold_left (fun r i => r * f i) l 0 = 0.
Proof. induction l as [|i l IH]; [reflexivity|]. cbn [fold_left]. rewrite Rmult_0_l. exact IH. Qed.
Lemma griewank_value d x : length x = d -> griewank d x = Ok (rsum (map (fun i => get i x ^ 2 / 4000) (range 0 d))).
Proof.
  intros HL. unfold griewank. rewrite (reads_ok _ _ _ HL). f_equal. rewrite add_up_rsum, (zero_product (fun i => cos (get (i - 1) x / sqrt (INR i)) + 1)). ring.
Qed.
Theorem griewank_exactly d x : length x = d -> exists v, griewank d x = Ok v /\
  (v = griewank_textbook d x <-> rprod (map (fun i => cos (get (i - 1) x / sqrt (INR i))) (range 1 (d + 1))) = 1).
Proof. intros HL. rewrite (griewank_value d x HL). eexists. split; [reflexivity|]. unfold griewank_textbook. split; intros; lra. Qed.
Theorem griewank_min d : minimum d (griewank d) (all_equal d 0).
Proof.
  intros x HL. rewrite (griewank_value d x HL). eexists. split; [reflexivity|].
  assert (HN : forall i, In i (range 0 d) -> 0 <= get i x ^ 2 / 4000) by (intros i _; pose proof (sq_nonneg (get i x)); lra).
  split; [apply sum_nonneg; exact HN|]. rewrite (sum_zero _ _ HN), (all_equal_iff d 0 x HL). split.
  - intros H i Hi. specialize (H i ltac:(apply in_range; lia)). apply sq_zero. lra.
  - intros H i Hi. apply in_range in Hi. rewrite (H i) by lia. field.
Qed.
Theorem griewank_wrong : exists d x, (1 <= d)%nat /\ length x = d /\ griewank d x <> Ok (griewank_textbook d x).
Proof.
  exists 1%nat, [PI]. split; [lia|]. split; [reflexivity|]. destruct (griewank_exactly 1 [PI] eq_refl) as (v & E & H). rewrite E. intros G. assert (Ev : v = griewank_textbook 1 [PI]) by congruence.
  apply H in Ev. cbn in Ev. unfold get in Ev. cbn in Ev. rewrite sqrt_1 in Ev. replace (PI / 1) with PI in Ev by field. rewrite cos_PI in Ev. lra.
Qed.

(** ** Weierstrass *)
Lemma cos_odd k : cos (2 * PI * 3 ^ k * (1 / 2)) = -1.
Proof.
  replace (2 * PI * 3 ^ k * (1 / 2)) with (3 ^ k * PI) by field. induction k as [|k IH]; [rewrite pow_O, Rmult_1_l; apply cos_PI|].
  cbn [pow]. replace (3 * 3 ^ k * PI) with (3 ^ k * PI + 2 * (3 ^ k * PI)) by ring. rewrite cos_plus.
  assert (S : sin (3 ^ k * PI) = 0). { pose proof (sin2_cos2 (3 ^ k * PI)) as H. unfold Rsqr in H. rewrite IH in H. nra. }
  rewrite S, (cos_2a (3 ^ k * PI)), IH, S. ring.
Qed.
(** sum over k of a^k cos(2 pi b^k (u + 1/2)) *)
Definition wave (u : R) : R := rsum (map (fun k => (1 / 2) ^ k * cos (2 * PI * 3 ^ k * (u + 1 / 2))) (range 0 20)).
Definition weierstrass_textbook (d : nat) (x : list R) : R := rsum (map (fun i => wave (get i x)) (range 0 d)) - INR d * wave 0.
Lemma wave_0 : wave 0 = - (2 - (1 / 2) ^ 19).
Proof.
  unfold wave. rewrite (rsum_ext _ (fun k => -1 * (1 / 2) ^ k)).
  - rewrite rsum_scal. cbn. field.
  - intros k _. rewrite Rplus_0_l, cos_odd. ring.
Qed.
Lemma weierstrass_value d x : length x = d -> weierstrass d x = Ok (weierstrass_textbook d x + INR d * (INR d - 1) * (2 - (1 / 2) ^ 19)).
Proof.
  intros HL. unfold weierstrass. rewrite (reads_ok _ _ _ HL). f_equal. rewrite !add_up_rsum, Rplus_0_l.
  assert (E2 : 0 + rsum (map (fun k => (1 / 2) ^ k * cos (2 * PI * 3 ^ k * (1 / 2))) (range 0 20)) = wave 0).
  { rewrite Rplus_0_l. unfold wave. apply rsum_ext. intros k _. rewrite Rplus_0_l. reflexivity. }
  rewrite E2. rewrite (rsum_ext _ (fun i => wave (get i x) + - (INR d * wave 0))).
  - rewrite rsum_plus, rsum_const, range_length, Nat.sub_0_r. unfold weierstrass_textbook. rewrite wave_0. ring.
  - intros i _. rewrite add_up_rsum, Rplus_0_l. unfold wave. ring.
Qed.
Lemma textbook_zero d : weierstrass_textbook d (repeat 0 d) = 0.
Proof.
  unfold weierstrass_textbook. rewrite (rsum_ext _ (fun _ => wave 0)); [rewrite rsum_const, range_length, Nat.sub_0_r; ring|].
  intros i Hi. apply in_range in Hi. rewrite (proj1 (all_equal_iff d 0 (repeat 0 d) (repeat_length _ _)) eq_refl i) by lia. reflexivity.
Qed.
Lemma weierstrass_zero d : weierstrass d (repeat 0 d) = Ok (INR d * (INR d - 1) * (2 - (1 / 2) ^ 19)).
Proof. rewrite (weierstrass_value d _ (repeat_length _ _)), textbook_zero. f_equal. ring. Qed.
Theorem weierstrass_at_zero d : (weierstrass d (repeat 0 d) = Ok 0 <-> d = 0%nat \/ d = 1%nat).
Proof.
  rewrite weierstrass_zero. set (c := 2 - (1 / 2) ^ 19). assert (Hc : 0 < c) by (unfold c; cbn; lra). split.
  - intros E. assert (E' : INR d * (INR d - 1) * c = 0) by congruence. apply Rmult_integral in E' as [E'|E']; [|lra]. apply Rmult_integral in E' as [E'|E'].
    + left. apply INR_eq. exact E'.
    + right. apply INR_eq. cbn [INR]. lra.
  - intros [-> | ->]; f_equal; cbn [INR]; ring.
Qed.
(** The textbook function is never below its value at zero, hence neither is this one. *)
Lemma wave_min u : wave 0 <= wave u.
Proof.
  unfold wave. apply rsum_le. intros k _. rewrite Rplus_0_l, cos_odd. pose proof (COS_bound (2 * PI * 3 ^ k * (u + 1 / 2))). assert (0 < (1 / 2) ^ k) by (apply pow_lt; lra). nra.
Qed.
Theorem weierstrass_min d x : length x = d -> exists v, weierstrass d x = Ok v /\ INR d * (INR d - 1) * (2 - (1 / 2) ^ 19) <= v.
Proof.
  intros HL. rewrite (weierstrass_value d x HL). eexists. split; [reflexivity|]. assert (0 <= weierstrass_textbook d x); [|lra]. unfold weierstrass_textbook.
  assert (INR d * wave 0 <= rsum (map (fun i => wave (get i x)) (range 0 d))); [|lra].
  replace (INR d * wave 0) with (rsum (map (fun _ => wave 0) (range 0 d))) by (rewrite rsum_const, range_length, Nat.sub_0_r; ring). apply rsum_le. intros i _. apply wave_min.
Qed.

(** ** Shift and rotation *)
(** The files that the repository contains for the functions cec14_1 ... cec14_16. *)
Definition shipped (D : data) : Prop := forall k, (1 <= k <= 16)%nat ->
  (exists l, shift_file D k = Some l /\ length l = 100%nat) /\
  forall d, (In d [2; 10; 20; 30; 50; 100]%nat -> exists m, rot_file D k d = Some m /\ length m = (d * d)%nat) /\
            (~ In d [2; 10; 20; 30; 50; 100]%nat -> rot_file D k d = None).
(** the optimum: the first d numbers of the shift file *)
Definition shift_of (D : data) (d k : nat) : list R := match shift_file D k with Some l => firstn d l | None => [] end.

Lemma new_cec_cases dim d : new_cec dim = Ok d -> In d [1; 10; 20; 30; 50; 100]%nat.
Proof.
  unfold new_cec. destruct (existsb (Z.eqb dim) [1; 10; 20; 30; 50; 100]%Z) eqn:E; [|discriminate]. intros H. assert (Hd : d = Z.to_nat dim) by congruence. subst d.
  apply existsb_exists in E as (z & Hz & E). apply Z.eqb_eq in E. subst z. cbn in Hz. repeat (destruct Hz as [<-|Hz]; [cbn; tauto|]). destruct Hz.
Qed.

Lemma shift_length D d k : shipped D -> (1 <= k <= 16)%nat -> (d <= 100)%nat -> length (shift_of D d k) = d /\ load_shift D d k = Ok (shift_of D d k).
Proof.
  intros HD Hk Hd. destruct (HD k Hk) as ((l & El & Hl) & _). unfold shift_of, load_shift. rewrite El. split; [rewrite firstn_length; lia|reflexivity].
Qed.
Lemma np_sub_ok x s : length x = length s -> exists v, np_sub x s = Ok v /\ length v = length s /\ (x = s -> v = repeat 0 (length s)).
Proof.
  intros H. unfold np_sub. rewrite (proj2 (Nat.eqb_eq _ _) H). eexists. split; [reflexivity|]. split; [rewrite map_length, combine_length; lia|].
  intros ->. clear H. induction s as [|a s IH]; [reflexivity|]. cbn. rewrite IH. f_equal. ring.
Qed.
Lemma scale_zero c n : map (Rmult c) (repeat 0 n) = repeat 0 n.
Proof. induction n as [|n IH]; [reflexivity|]. cbn. rewrite IH. f_equal. ring. Qed.
Lemma dot_zero r n : fold_left Rplus (map (fun p => fst p * snd p) (combine r (repeat 0 n))) 0 = 0.
Proof.
  revert n. induction r as [|a r IH]; intros [|n]; try reflexivity. cbn [repeat combine map fold_left fst snd]. replace (0 + a * 0) with 0 by ring. apply IH.
Qed.

Lemma map_zero {A} (f : A -> R) l : (forall i, f i = 0) -> map f l = repeat 0 (length l).
Proof. intros H. induction l as [|a l IH]; [reflexivity|]. cbn. rewrite IH, H. reflexivity. Qed.

Lemma shifted_ok D d k c x : shipped D -> (1 <= k <= 16)%nat -> (d <= 100)%nat -> length x = d ->
  exists z, shifted D d k c x = Ok z /\ length z = d /\ (x = shift_of D d k -> z = repeat 0 d).
Proof.
  intros HD Hk Hd HL. destruct (shift_length D d k HD Hk Hd) as [Ls Es]. destruct (np_sub_ok x (shift_of D d k) ltac:(congruence)) as (v & Ev & Lv & Zv).
  unfold shifted. rewrite Es. cbn [rbind]. rewrite Ev. cbn [rbind]. eexists. split; [reflexivity|]. split; [rewrite map_length; congruence|].
  intros E. rewrite (Zv E), Ls. apply scale_zero.
Qed.
Lemma rotated_ok D d k c x : shipped D -> (1 <= k <= 16)%nat -> In d [10; 20; 30; 50; 100]%nat -> length x = d ->
  exists z, rotated D d k c x = Ok z /\ length z = d /\ (x = shift_of D d k -> z = repeat 0 d).
Proof.
  intros HD Hk Hd HL. assert (Hd' : (d <= 100)%nat) by (cbn in Hd; lia). destruct (shift_length D d k HD Hk Hd') as [Ls Es].
  destruct (np_sub_ok x (shift_of D d k) ltac:(congruence)) as (v & Ev & Lv & Zv). unfold rotated. rewrite Es. cbn [rbind]. rewrite Ev. cbn [rbind].
  destruct (HD k Hk) as (_ & HR). destruct (proj1 (HR d) ltac:(cbn in Hd |- *; tauto)) as (m & Em & Lm). unfold load_rot. rewrite Em, (proj2 (Nat.eqb_eq _ _) Lm). cbn [rbind].
  unfold np_dot. rewrite !map_length, seq_length, Lv, Ls, Nat.eqb_refl. eexists. split; [reflexivity|]. split; [rewrite !map_length, seq_length; reflexivity|].
  intros E. rewrite (Zv E), Ls, scale_zero.
  rewrite map_map, (map_zero _ (seq 0 d)); [rewrite seq_length; reflexivity|]. intros i. apply dot_zero.
Qed.
(** No rotation file for one variable. *)
Lemma rotated_one D k c x : shipped D -> (1 <= k <= 16)%nat -> length x = 1%nat -> rotated D 1 k c x = Raise FileNotFoundError.
Proof.
  intros HD Hk HL. destruct (shift_length D 1 k HD Hk ltac:(lia)) as [Ls Es]. destruct (np_sub_ok x (shift_of D 1 k) ltac:(congruence)) as (v & Ev & _).
  unfold rotated. rewrite Es. cbn [rbind]. rewrite Ev. cbn [rbind]. unfold load_rot. destruct (HD k Hk) as (_ & HR). rewrite (proj2 (HR 1%nat)); [reflexivity|cbn; lia].
Qed.

(** what [cec14 D d k] does on top of a function with the given minimum *)
Lemma on_rotated D d k c f opt b x : shipped D -> (1 <= k <= 16)%nat -> In d [10; 20; 30; 50; 100]%nat -> length x = d -> minimum d f opt ->
  exists v, rbind (rotated D d k c x) (fun z => bias b (f z)) = Ok v /\ b <= v /\ (opt (repeat 0 d) -> x = shift_of D d k -> v = b).
Proof.
  intros HD Hk Hd HL HM. destruct (rotated_ok D d k c x HD Hk Hd HL) as (z & Ez & Lz & Zz). rewrite Ez. cbn [rbind]. destruct (HM z Lz) as (v & Ev & Hv & Hz). rewrite Ev. cbn [bias rmap].
  eexists. split; [reflexivity|]. split; [lra|]. intros Ho E. rewrite (Zz E) in Hz. apply Hz in Ho. rewrite Ho. ring.
Qed.
Lemma on_shifted D d k c f opt b x : shipped D -> (1 <= k <= 16)%nat -> (d <= 100)%nat -> length x = d -> minimum d f opt ->
  exists v, rbind (shifted D d k c x) (fun z => bias b (f z)) = Ok v /\ b <= v /\ (opt (repeat 0 d) -> x = shift_of D d k -> v = b).
Proof.
  intros HD Hk Hd HL HM. destruct (shifted_ok D d k c x HD Hk Hd HL) as (z & Ez & Lz & Zz). rewrite Ez. cbn [rbind]. destruct (HM z Lz) as (v & Ev & Hv & Hz). rewrite Ev. cbn [bias rmap].
  eexists. split; [reflexivity|]. split; [lra|]. intros Ho E. rewrite (Zz E) in Hz. apply Hz in Ho. rewrite Ho. ring.
Qed.
Lemma minimum_plus1 d f c : minimum d f (all_equal d c) -> minimum d (fun z => f (plus1 z)) (all_equal d (c - 1)).
Proof.
  intros HM x HL. assert (HL' : length (plus1 x) = d) by (unfold plus1; rewrite map_length; exact HL). destruct (HM (plus1 x) HL') as (v & Ev & Hv & Hz). exists v.
  refine (conj Ev (conj Hv _)). rewrite Hz, (all_equal_iff d c _ HL'), (all_equal_iff d (c - 1) x HL).
  assert (G : forall i, (i < d)%nat -> get i (plus1 x) = get i x + 1).
  { intros i Hi. unfold get, plus1. rewrite (nth_indep _ 0 (0 + 1)) by (rewrite map_length; lia). apply (map_nth (fun a => a + 1)). }
  split; intros H i Hi; specialize (H i Hi); rewrite (G i Hi) in *; lra.
Qed.

(** Functions whose value at the shift is the CEC'14 bias, and that are never below it. *)
Theorem cec_bias D dim d k x : shipped D -> new_cec dim = Ok d -> (2 <= d)%nat -> In k [1; 2; 3; 4; 6; 7; 8; 9; 12]%nat -> length x = d ->
  exists v, cec14 D d k x = Ok v /\ 100 * INR k <= v /\ (x = shift_of D d k -> v = 100 * INR k).
Proof.
  intros HD Hc H2 Hk HL. apply new_cec_cases in Hc. assert (Hd : In d [10; 20; 30; 50; 100]%nat) by (cbn in *; lia). assert (Hd1 : (1 <= d)%nat) by lia.
  assert (R0 : all_equal d 0 (repeat 0 d)) by reflexivity.
  assert (EB : forall b, b = 100 * INR k -> (exists v, cec14 D d k x = Ok v /\ b <= v /\ (x = shift_of D d k -> v = b)) ->
               exists v, cec14 D d k x = Ok v /\ 100 * INR k <= v /\ (x = shift_of D d k -> v = 100 * INR k)) by (intros b -> H; exact H).
  cbn [In] in Hk. destruct Hk as [<-|[<-|[<-|[<-|[<-|[<-|[<-|[<-|[<-|[]]]]]]]]]].
  - apply (EB 100); [cbn; ring|]. destruct (on_rotated D d 1 1 _ _ 100 x HD ltac:(lia) Hd HL (elliptic_min d H2)) as (v & E & G1 & G2). exists v. auto.
  - apply (EB 200); [cbn; ring|]. destruct (on_rotated D d 2 1 _ _ 200 x HD ltac:(lia) Hd HL (bent_min d Hd1)) as (v & E & G1 & G2). exists v. auto.
  - apply (EB 300); [cbn; ring|]. destruct (on_rotated D d 3 1 _ _ 300 x HD ltac:(lia) Hd HL (discus_min d Hd1)) as (v & E & G1 & G2). exists v. auto.
  - apply (EB 400); [cbn; ring|]. destruct (on_rotated D d 4 (2048 / 1000 / 100) _ _ 400 x HD ltac:(lia) Hd HL (minimum_plus1 d _ 1 (rosenbrock_min d H2))) as (v & E & G1 & G2).
    exists v. refine (conj E (conj G1 _)). apply G2. unfold all_equal. f_equal. ring.
  - apply (EB 600); [cbn; ring|]. destruct (on_rotated D d 6 (5 / 10 / 100) _ _ 600 x HD ltac:(lia) Hd HL (ackley_min d Hd1)) as (v & E & G1 & G2). exists v. auto.
  - apply (EB 700); [cbn; ring|]. destruct (on_rotated D d 7 (600 / 100) _ _ 700 x HD ltac:(lia) Hd HL (griewank_min d)) as (v & E & G1 & G2). exists v. auto.
  - apply (EB 800); [cbn; ring|]. destruct (on_shifted D d 8 (512 / 100 / 100) _ _ 800 x HD ltac:(lia) ltac:(cbn in Hd; lia) HL (rastrigin_min d)) as (v & E & G1 & G2). exists v. auto.
  - apply (EB 900); [cbn; ring|]. destruct (on_rotated D d 9 (512 / 100 / 100) _ _ 900 x HD ltac:(lia) Hd HL (rastrigin_min d)) as (v & E & G1 & G2). exists v. auto.
  - apply (EB 1200); [cbn; ring|]. destruct (on_rotated D d 12 (5 / 100) _ _ 1200 x HD ltac:(lia) Hd HL (katsuura_min d Hd1)) as (v & E & G1 & G2). exists v.
    refine (conj E (conj G1 _)). apply G2. intros i Hi. exists 0%Z. unfold get. rewrite nth_repeat. ring.
Qed.

(** The other functions: how far the value at the shift is from the bias. *)
Lemma get_repeat i d c : (i < d)%nat -> get i (repeat c d) = c.
Proof. intros H. apply (proj1 (all_equal_iff d c (repeat c d) (repeat_length _ _)) eq_refl i H). Qed.
Lemma sum_repeat d (f : R -> R) : rsum (map (fun i => f (get i (repeat 0 d))) (range 0 d)) = INR d * f 0.
Proof.
  rewrite (rsum_ext _ (fun _ => f 0)); [rewrite rsum_const, range_length, Nat.sub_0_r; reflexivity|]. intros i Hi. apply in_range in Hi. rewrite get_repeat by lia. reflexivity.
Qed.
Lemma happycat_zero d : (1 <= d)%nat -> happycat d (repeat 0 d) = Ok (Rpower (INR d) (1 / 4) + 1 / 2).
Proof.
  intros Hd. unfold happycat. rewrite (reads_ok _ _ _ (repeat_length _ _)). f_equal. rewrite !add_up_rsum, !Rplus_0_l.
  rewrite (shift_range (fun i => get i (repeat 0 d) ^ 2)), (shift_range (fun i => get i (repeat 0 d))), (sum_repeat d (fun a => a ^ 2)), (sum_repeat d (fun a => a)).
  assert (Hdp : 0 < INR d) by (apply lt_0_INR; lia). replace (INR d * 0 ^ 2 - INR d) with (- INR d) by ring. rewrite Rabs_Ropp, Rabs_pos_eq by lra.
  unfold ppow. destruct (Req_EM_T (INR d) 0); [lra|]. replace (25 / 100) with (1 / 4) by field. field. lra.
Qed.
Lemma hgbat_zero d : (1 <= d)%nat -> hgbat d (repeat 0 d) = Ok (1 / 2).
Proof.
  intros Hd. unfold hgbat. rewrite (reads_ok _ _ _ (repeat_length _ _)). f_equal. rewrite !add_up_rsum, !Rplus_0_l.
  rewrite (shift_range (fun i => get i (repeat 0 d) ^ 2)), (shift_range (fun i => get i (repeat 0 d))), (sum_repeat d (fun a => a ^ 2)), (sum_repeat d (fun a => a)).
  assert (Hdp : 0 < INR d) by (apply lt_0_INR; lia). replace ((INR d * 0 ^ 2) ^ 2 - (INR d * 0) ^ 2) with 0 by ring. rewrite Rabs_R0, ppow_0. field. lra.
Qed.
Lemma plus1_zero d : plus1 (repeat 0 d) = repeat 1 d.
Proof. unfold plus1. induction d as [|d IH]; [reflexivity|]. cbn. rewrite IH. f_equal. ring. Qed.
Lemma scaffer_one d : (1 <= d)%nat -> expanded_scaffer d (repeat 1 d) = Ok (INR d * scaffer_f6 1 1).
Proof.
  intros Hd. unfold expanded_scaffer. rewrite (reads_ok _ _ _ (repeat_length _ _)). f_equal. rewrite add_up_rsum, Rplus_0_l.
  rewrite (rsum_ext _ (fun _ => scaffer_f6 1 1)).
  - rewrite rsum_const, range_length, !get_repeat by lia. destruct d; [lia|]. rewrite Nat.sub_succ, Nat.sub_0_r, S_INR. ring.
  - intros i Hi. apply in_range in Hi. rewrite !get_repeat by lia. reflexivity.
Qed.

Lemma at_shift D d k c f b : shipped D -> (1 <= k <= 16)%nat -> In d [10; 20; 30; 50; 100]%nat ->
  rbind (rotated D d k c (shift_of D d k)) (fun z => bias b (f z)) = bias b (f (repeat 0 d)).
Proof.
  intros HD Hk Hd. destruct (shift_length D d k HD Hk ltac:(cbn in Hd; lia)) as [L _]. destruct (rotated_ok D d k c _ HD Hk Hd L) as (z & Ez & _ & Zz).
  rewrite Ez. cbn [rbind]. rewrite (Zz eq_refl). reflexivity.
Qed.

Theorem cec_off D dim d : shipped D -> new_cec dim = Ok d -> (2 <= d)%nat ->
  cec14 D d 5 (shift_of D d 5) = Ok 800 /\
  cec14 D d 13 (shift_of D d 13) = Ok (1300 + (Rpower (INR d) (1 / 4) + 1 / 2)) /\
  cec14 D d 14 (shift_of D d 14) = Ok (1400 + 1 / 2) /\
  cec14 D d 16 (shift_of D d 16) = Ok (1600 + INR d * scaffer_f6 1 1) /\ 0 < scaffer_f6 1 1.
Proof.
  intros HD Hc H2. apply new_cec_cases in Hc. assert (Hd : In d [10; 20; 30; 50; 100]%nat) by (cbn in *; lia). assert (Hd1 : (1 <= d)%nat) by lia.
  refine (conj _ (conj _ (conj _ (conj _ _)))).
  - unfold cec14. rewrite (at_shift D d 5 1 (ackley d) 800 HD ltac:(lia) Hd). destruct (ackley_min d Hd1 (repeat 0 d) (repeat_length _ _)) as (v & Ev & _ & Hz). rewrite Ev. cbn [bias rmap].
    rewrite (proj2 Hz eq_refl). f_equal. ring.
  - unfold cec14. rewrite (at_shift D d 13 (5 / 100) (happycat d) 1300 HD ltac:(lia) Hd), (happycat_zero d Hd1). cbn [bias rmap]. f_equal. ring.
  - unfold cec14. rewrite (at_shift D d 14 (5 / 100) (hgbat d) 1400 HD ltac:(lia) Hd), (hgbat_zero d Hd1). cbn [bias rmap]. f_equal. ring.
  - unfold cec14. rewrite (at_shift D d 16 1 (fun z => expanded_scaffer d (plus1 z)) 1600 HD ltac:(lia) Hd), plus1_zero, (scaffer_one d Hd1). cbn [bias rmap]. f_equal. ring.
  - destruct (scaffer_min 1 1) as [G1 G2]. destruct (Rle_lt_or_eq_dec _ _ G1) as [H|H]; [exact H|]. symmetry in H. apply G2 in H. lra.
Qed.
Theorem cec_above D dim d x : shipped D -> new_cec dim = Ok d -> (2 <= d)%nat -> length x = d ->
  (exists v, cec14 D d 5 x = Ok v /\ 800 <= v) /\ (exists v, cec14 D d 13 x = Ok v /\ 1300 <= v) /\
  (exists v, cec14 D d 14 x = Ok v /\ 1400 <= v) /\ (exists v, cec14 D d 16 x = Ok v /\ 1600 <= v).
Proof.
  intros HD Hc H2 HL. apply new_cec_cases in Hc. assert (Hd : In d [10; 20; 30; 50; 100]%nat) by (cbn in *; lia). assert (Hd1 : (1 <= d)%nat) by lia.
  refine (conj _ (conj _ (conj _ _))).
  - destruct (on_rotated D d 5 1 _ _ 800 x HD ltac:(lia) Hd HL (ackley_min d Hd1)) as (v & E & G1 & _). exists v. auto.
  - destruct (on_rotated D d 13 (5 / 100) _ _ 1300 x HD ltac:(lia) Hd HL (happycat_min d Hd1)) as (v & E & G1 & _). exists v. auto.
  - destruct (on_rotated D d 14 (5 / 100) _ _ 1400 x HD ltac:(lia) Hd HL (hgbat_min d Hd1)) as (v & E & G1 & _). exists v. auto.
  - destruct (on_rotated D d 16 1 _ _ 1600 x HD ltac:(lia) Hd HL (minimum_plus1 d _ 0 (scaffer_expanded_min d Hd1))) as (v & E & G1 & _). exists v. auto.
Qed.

(** ** Which functions can be evaluated *)
Definition implemented : list nat := [1; 2; 3; 4; 5; 6; 7; 8; 9; 10; 11; 12; 13; 14; 16]%nat.
Theorem cec_defined D dim d k x : shipped D -> new_cec dim = Ok d -> In k implemented -> length x = d ->
  (d <> 1%nat \/ k = 8%nat \/ k = 10%nat -> exists v, cec14 D d k x = Ok v) /\
  (d = 1%nat -> k <> 8%nat -> k <> 10%nat -> cec14 D d k x = Raise FileNotFoundError).
Proof.
  intros HD Hc Hk HL. pose proof Hc as Hc'. apply new_cec_cases in Hc. split.
  - intros Hor. destruct (Nat.eq_dec d 1) as [E1|E1].
    + destruct Hor as [Hn|[-> | ->]]; [contradiction| |].
      * destruct (shifted_ok D d 8 (512 / 100 / 100) x HD ltac:(lia) ltac:(lia) HL) as (z & Ez & _). unfold cec14. rewrite Ez. cbn [rbind bias rmap]. eauto.
      * destruct (shifted_ok D d 10 10 x HD ltac:(lia) ltac:(lia) HL) as (z & Ez & _). unfold cec14. rewrite Ez. cbn [rbind bias rmap]. eauto.
    + assert (Hd : In d [10; 20; 30; 50; 100]%nat) by (cbn in *; lia). assert (H2 : (2 <= d)%nat) by (cbn in Hd; lia).
      assert (A : In k [1; 2; 3; 4; 6; 7; 8; 9; 12]%nat \/ k = 5%nat \/ k = 10%nat \/ k = 11%nat \/ k = 13%nat \/ k = 14%nat \/ k = 16%nat) by (cbn in Hk |- *; lia).
      destruct A as [A|[-> |[-> |[-> |[-> |[-> | ->]]]]]].
      * destruct (cec_bias D dim d k x HD Hc' H2 A HL) as (v & E & _). eauto.
      * destruct (cec_above D dim d x HD Hc' H2 HL) as ((v & E & _) & _). eauto.
      * destruct (shifted_ok D d 10 10 x HD ltac:(lia) ltac:(cbn in Hd; lia) HL) as (z & Ez & _). unfold cec14. rewrite Ez. cbn [rbind bias rmap]. eauto.
      * destruct (rotated_ok D d 11 10 x HD ltac:(lia) Hd HL) as (z & Ez & _). unfold cec14. rewrite Ez. cbn [rbind bias rmap]. eauto.
      * destruct (cec_above D dim d x HD Hc' H2 HL) as (_ & (v & E & _) & _). eauto.
      * destruct (cec_above D dim d x HD Hc' H2 HL) as (_ & _ & (v & E & _) & _). eauto.
      * destruct (cec_above D dim d x HD Hc' H2 HL) as (_ & _ & _ & (v & E & _)). eauto.
  - intros E1 N8 N10. rewrite E1 in *. cbn [In implemented] in Hk.
    repeat (destruct Hk as [<-|Hk]; [first [exfalso; apply N8; reflexivity|exfalso; apply N10; reflexivity|unfold cec14; rewrite rotated_one; [reflexivity|exact HD|lia|exact HL]]|]).
    destruct Hk.
Qed.

(** data files of the right shape exist *)
Definition zero_data : data := mkData (fun _ => Some (repeat 0 100))
  (fun _ d => if existsb (Nat.eqb d) [2; 10; 20; 30; 50; 100]%nat then Some (repeat 0 (d * d)) else None).
Lemma zero_shipped : shipped zero_data.
Proof.
  intros k _. split; [exists (repeat 0 100); split; [reflexivity|apply repeat_length]|]. intros d. unfold zero_data. cbn [rot_file]. split.
  - intros Hd. assert (E : existsb (Nat.eqb d) [2; 10; 20; 30; 50; 100]%nat = true) by (apply existsb_exists; exists d; split; [exact Hd|apply Nat.eqb_refl]).
    rewrite E. eexists. split; [reflexivity|apply repeat_length].
  - intros Hd. destruct (existsb (Nat.eqb d) [2; 10; 20; 30; 50; 100]%nat) eqn:E; [|reflexivity]. apply existsb_exists in E as (z & Hz & Ez). apply Nat.eqb_eq in Ez. subst z. contradiction.
Qed.
