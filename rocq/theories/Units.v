(** Learning from individuals expressed in other units of measurement, in exact arithmetic. *)
From Coq Require Import String List ZArith Bool Lia Reals Lra.
From Verif Require Import PyBase B64 NdArray Rand Models ModelThms.
Import ListNotations.
Open Scope R_scope.

(** Variable [i] of an individual in another unit: [a i] is the size of the old unit, [b i] its origin. *)
Definition units (a b : nat -> R) (r : list R) : list R := tabulate (List.length r) (fun i => a i * nth i r 0 + b i).

Section Column.
Variables a b : R.
Let f (v : R) : R := a * v + b.
Lemma Rsum_affine x : Rsum (map f x) = a * Rsum x + INR (List.length x) * b.
Proof.
  induction x as [|v x IH]; [cbn; lra|]. cbn [map List.length]. rewrite S_INR.
  change (Rsum (f v :: map f x)) with (f v + Rsum (map f x)). change (Rsum (v :: x)) with (v + Rsum x). rewrite IH. unfold f. lra.
Qed.
Lemma len_pos {A} (x : list A) : x <> [] -> 0 < INR (List.length x).
Proof. intros H. apply lt_0_INR. destruct x; [congruence|cbn; lia]. Qed.
Lemma avg_affine x : x <> [] -> avg (map f x) = a * avg x + b.
Proof. intros H. pose proof (len_pos x H). unfold avg. rewrite Rsum_affine, map_length. field. lra. Qed.
Lemma Rsum_scale {A} (g : A -> R) c (l : list A) : Rsum (map (fun p => c * g p) l) = c * Rsum (map g l).
Proof. induction l as [|p l IH]; cbn [map]; [cbn; lra|]. change (Rsum (c * g p :: map (fun q => c * g q) l)) with (c * g p + Rsum (map (fun q => c * g q) l)). rewrite IH.
  change (Rsum (g p :: map g l)) with (g p + Rsum (map g l)). lra. Qed.
Lemma pop_var_affine x : x <> [] -> pop_var (map f x) = (a * a) * pop_var x.
Proof.
  intros H. unfold pop_var. rewrite avg_affine by exact H. rewrite map_map, map_length.
  rewrite (map_ext _ (fun v => (a * a) * ((v - avg x) * (v - avg x)))) by (intros v; unfold f; ring).
  rewrite Rsum_scale. unfold Rdiv. ring.
Qed.
Lemma std_affine x : x <> [] -> sqrt (pop_var (map f x)) = Rabs a * sqrt (pop_var x).
Proof.
  intros H. rewrite pop_var_affine by exact H. rewrite sqrt_mult_alt by nra. f_equal. rewrite <- sqrt_Rsqr_abs. reflexivity.
Qed.
End Column.

Lemma sample_cov_affine a b a' b' x y : x <> [] -> y <> [] ->
  sample_cov (map (fun v => a * v + b) x) (map (fun v => a' * v + b') y) = (a * a') * sample_cov x y.
Proof.
  intros Hx Hy. unfold sample_cov. rewrite avg_affine, avg_affine by assumption. rewrite combine_map2, map_map, map_length. cbn [fst snd].
  rewrite (map_ext _ (fun p => (a * a') * ((fst p - avg x) * (snd p - avg y)))) by (intros p; ring).
  rewrite (Rsum_scale (fun p => (fst p - avg x) * (snd p - avg y))). unfold Rdiv. ring.
Qed.

Section Rows.
Variables (a b : nat -> R) (nc : nat) (d : list (list R)).
Hypothesis rows : Forall (fun r => List.length r = nc) d.
Hypothesis some : d <> [].
Lemma units_col i : (i < nc)%nat -> map (fun r => nth i r 0) (map (units a b) d) = map (fun v => a i * v + b i) (map (fun r => nth i r 0) d).
Proof.
  intros H. rewrite !map_map. apply map_ext_in. intros r Hr. rewrite Forall_forall in rows. unfold units. rewrite nth_tabulate; [reflexivity|]. rewrite (rows r Hr). exact H.
Qed.
Lemma col_some i : map (fun r => nth i r 0) d <> [].
Proof. destruct d; [congruence|discriminate]. Qed.
Lemma max_scale c lo v : 0 <= c -> Rmax (c * lo) (c * v) = c * Rmax lo v.
Proof. intros H. apply RmaxRmult, H. Qed.
Lemma min_scale c hi v : 0 <= c -> Rmin (c * hi) (c * v) = c * Rmin hi v.
Proof.
  intros H. unfold Rmin. destruct (Rle_dec hi v) as [E|E], (Rle_dec (c * hi) (c * v)) as [E'|E']; try reflexivity.
  - exfalso. apply E'. apply Rmult_le_compat_l; assumption.
  - apply Rle_antisym; [exact E'|]. apply Rmult_le_compat_l; lra.
Qed.

Lemma learned_length {T} (upd : nat -> res (T * T)) (pm pm' : list (T * T)) :
  learn_from upd 0 pm = (Ok tt, pm') -> forall k, (k < List.length pm)%nat -> exists q, upd k = Ok q.
Proof. intros H k Hk. apply learn_from_ok in H as [_ H]. destruct (H k Hk) as (q & _ & Hq). exists q. exact Hq. Qed.
Lemma learn_from_some {T} (upd : nat -> res (T * T)) pm : forall i, (forall k, (k < List.length pm)%nat -> exists q, upd (i + k)%nat = Ok q) -> exists pm', learn_from upd i pm = (Ok tt, pm').
Proof.
  induction pm as [|p pm IH]; intros i H; [exists []; reflexivity|]. cbn [learn_from]. destruct (H 0%nat ltac:(cbn; lia)) as (q & Hq). rewrite Nat.add_0_r in Hq. rewrite Hq.
  destruct (IH (S i)) as (pm' & E). { intros k Hk. destruct (H (S k) ltac:(cbn; lia)) as (q' & Hq'). exists q'. rewrite <- Hq'. f_equal. lia. }
  rewrite E. exists (q :: pm'). reflexivity.
Qed.

Lemma unigauss_units lower lower' pm pm0 q :
  (forall i, (i < List.length pm)%nat -> lower' = Rabs (a i) * lower) -> List.length pm0 = List.length pm ->
  unigauss_learn R_ops lower (real_col nc d) pm = (Ok tt, q) ->
  exists q', unigauss_learn R_ops lower' (real_col nc (map (units a b) d)) pm0 = (Ok tt, q') /\ List.length q' = List.length q /\
    forall i m s, nth_error q i = Some (m, s) -> nth_error q' i = Some (a i * m + b i, Rabs (a i) * s).
Proof.
  intros Hl L H. assert (W : forall k, (k < List.length pm)%nat -> (k < nc)%nat).
  { intros k Hk. destruct (learned_length _ _ _ H k Hk) as (p & Hp). unfold unigauss_upd, real_col in Hp. destruct (Nat.ltb_spec k nc); [assumption|discriminate]. }
  destruct (learn_from_some (unigauss_upd R_ops lower' (real_col nc (map (units a b) d))) pm0 0) as (q' & H').
  { intros k Hk. cbn [plus]. unfold unigauss_upd, real_col. destruct (Nat.ltb_spec k nc) as [_|E]; [cbn [rmap]; eexists; reflexivity|]. rewrite L in Hk. specialize (W k Hk). lia. }
  exists q'. split; [exact H'|]. change (unigauss_learn R_ops lower' (real_col nc (map (units a b) d)) pm0 = (Ok tt, q')) in H'.
  apply unigauss_real in H as [Lq Hq]. apply unigauss_real in H' as [Lq' Hq']. split; [congruence|]. intros i m s Hi.
  assert (Hn : (i < List.length q)%nat) by (apply nth_error_Some; congruence).
  destruct (nth_error q' i) as [[m' s']|] eqn:E; [|apply nth_error_None in E; lia].
  destruct (Hq i _ Hi) as (E1 & E2 & _). destruct (Hq' i _ E) as (E1' & E2' & _). cbn [fst snd] in *.
  rewrite units_col in E1', E2' by (apply W; lia). rewrite avg_affine in E1' by apply col_some. rewrite std_affine in E2' by apply col_some.
  rewrite (Hl i) in E2' by lia. rewrite max_scale in E2' by apply Rabs_pos. congruence.
Qed.

Lemma nth_units_col i k : (i < nc)%nat -> (k < List.length d)%nat ->
  nth k (map (fun r => nth i r 0) (map (units a b) d)) 0 = a i * nth k (map (fun r => nth i r 0) d) 0 + b i.
Proof.
  intros Hi Hk. rewrite units_col by exact Hi. set (x := map (fun r => nth i r 0) d). assert (Lx : (k < List.length x)%nat) by (unfold x; rewrite map_length; exact Hk).
  rewrite (nth_indep _ 0 (a i * 0 + b i)) by (rewrite map_length; exact Lx). apply (map_nth (fun v => a i * v + b i)).
Qed.
Lemma adapt_units lower lower' alpha pm pm0 q :
  (forall i, (i < List.length pm)%nat -> lower' = Rabs (a i) * lower) -> List.length pm0 = List.length pm ->
  adapt_learn R_ops lower alpha (real_col nc d) pm = (Ok tt, q) ->
  exists q', adapt_learn R_ops lower' alpha (real_col nc (map (units a b) d)) pm0 = (Ok tt, q') /\ List.length q' = List.length q /\
    forall i m s, nth_error q i = Some (m, s) -> nth_error q' i = Some (a i * m + b i, Rabs (a i) * s).
Proof.
  intros Hl L H. assert (W : forall k, (k < List.length pm)%nat -> (k < nc)%nat /\ (2 <= List.length d)%nat).
  { intros k Hk. destruct (learned_length _ _ _ H k Hk) as (p & Hp). unfold adapt_upd, real_col in Hp. destruct (Nat.ltb_spec k nc); [|discriminate]. split; [assumption|].
    cbn [rbind] in Hp. destruct d as [|r1 [|r2 d']]; try discriminate. cbn. lia. }
  destruct (learn_from_some (adapt_upd R_ops lower' alpha (real_col nc (map (units a b) d))) pm0 0) as (q' & H').
  { intros k Hk. cbn [plus]. rewrite L in Hk. destruct (W k Hk) as [W1 W2]. unfold adapt_upd, real_col. destruct (Nat.ltb_spec k nc) as [_|E]; [|lia]. cbn [rbind].
    destruct d as [|r1 [|r2 d']]; cbn in W2; try lia. cbn [map]. eexists. reflexivity. }
  exists q'. split; [exact H'|]. change (adapt_learn R_ops lower' alpha (real_col nc (map (units a b) d)) pm0 = (Ok tt, q')) in H'.
  apply adapt_real in H as [Lq Hq]. apply adapt_real in H' as [Lq' Hq']. split; [congruence|]. intros i m s Hi.
  assert (Hn : (i < List.length q)%nat) by (apply nth_error_Some; congruence).
  destruct (nth_error q' i) as [[m' s']|] eqn:E; [|apply nth_error_None in E; lia].
  destruct (Hq i _ Hi) as (N & E1 & E2). destruct (Hq' i _ E) as (_ & E1' & E2'). cbn [fst snd] in *.
  assert (Wi : (i < nc)%nat) by (apply W; lia).
  rewrite !nth_units_col in E1' by (try exact Wi; rewrite ?map_length; lia).
  rewrite units_col in E1', E2' by exact Wi. rewrite avg_affine in E1' by apply col_some. rewrite std_affine in E2' by apply col_some. rewrite map_length in E1'.
  rewrite (Hl i) in E2' by lia. rewrite max_scale in E2' by apply Rabs_pos. subst. apply f_equal, (f_equal2 pair); [ring|reflexivity].
Qed.

Lemma means_some {T} (o : ops T) (col : nat -> res (list T)) ms : forall i, (forall k, (k < List.length ms)%nat -> exists x, col (i + k)%nat = Ok x) -> exists ms', means_from o col i ms = (Ok tt, ms').
Proof.
  induction ms as [|m ms IH]; intros i H; [exists []; reflexivity|]. cbn [means_from]. destruct (H 0%nat ltac:(cbn; lia)) as (x & Hx). rewrite Nat.add_0_r in Hx. rewrite Hx.
  destruct (IH (S i)) as (ms' & E). { intros k Hk. destruct (H (S k) ltac:(cbn; lia)) as (y & Hy). exists y. rewrite <- Hy. f_equal. lia. }
  rewrite E. exists (mean o x :: ms'). reflexivity.
Qed.
Lemma cols_real (dd : list (list R)) n l : (forall i, In i l -> (i < n)%nat) -> rmapM (real_col n dd) l = Ok (map (fun i => map (fun r => nth i r 0) dd) l).
Proof.
  induction l as [|i l IH]; intros H; [reflexivity|]. cbn [rmapM map]. unfold real_col at 1. destruct (Nat.ltb_spec i n) as [_|E]; [|specialize (H i (or_introl eq_refl)); lia].
  rewrite IH by (intros; apply H; right; assumption). reflexivity.
Qed.
Lemma multigauss_units lower upper lower' upper' p p0 q :
  (forall i j, (i < nc)%nat -> (j < nc)%nat -> i <> j -> 0 <= a i * a j /\ lower' = a i * a j * lower /\ upper' = a i * a j * upper) ->
  List.length (mg_means p0) = List.length (mg_means p) -> (2 <= List.length d)%nat ->
  multigauss_learn R_ops lower upper nc (real_col nc d) p = (Ok tt, q) ->
  exists q' C C', multigauss_learn R_ops lower' upper' nc (real_col nc (map (units a b) d)) p0 = (Ok tt, q') /\ mg_cov q = CovMat C /\ mg_cov q' = CovMat C' /\
    List.length (mg_means q') = List.length (mg_means q) /\
    (forall i m, nth_error (mg_means q) i = Some m -> nth_error (mg_means q') i = Some (a i * m + b i)) /\
    (forall i j v, i <> j -> entry C i j = Some v -> entry C' i j = Some (a i * a j * v)) /\
    (forall i v, entry C i i = Some v -> entry C' i i = Some (Rabs (a i) * v)).
Proof.
  intros Hc L N H. apply multigauss_ok in H as (N1 & Lm & Hm & cols & Ecols & Lc & EC).
  assert (W : forall k, (k < List.length (mg_means p))%nat -> (k < nc)%nat).
  { intros k Hk. destruct (Hm k Hk) as (x & Hx & _). unfold real_col in Hx. destruct (Nat.ltb_spec k nc); [assumption|discriminate]. }
  assert (Ecols' : rmapM (real_col nc (map (units a b) d)) (seq 0 nc) = Ok (map (fun i => map (fun r => nth i r 0) (map (units a b) d)) (seq 0 nc))) by (apply cols_real; intros i Hi; apply in_seq in Hi; lia).
  rewrite (cols_real d nc) in Ecols by (intros i Hi; apply in_seq in Hi; lia). injection Ecols as <-.
  destruct (means_some R_ops (real_col nc (map (units a b) d)) (mg_means p0) 0) as (ms' & Ems).
  { intros k Hk. cbn [plus]. unfold real_col. rewrite L in Hk. specialize (W k Hk). destruct (Nat.ltb_spec k nc); [eexists; reflexivity|lia]. }
  set (cols := map (fun i => map (fun r => nth i r 0) d) (seq 0 nc)) in *.
  set (cols' := map (fun i => map (fun r => nth i r 0) (map (units a b) d)) (seq 0 nc)) in *.
  assert (Lc' : List.length cols' = nc) by (unfold cols'; rewrite map_length, seq_length; reflexivity).
  assert (E' : multigauss_learn R_ops lower' upper' nc (real_col nc (map (units a b) d)) p0 = (Ok tt, mkMG ms' (CovMat (cov_matrix R_ops lower' upper' cols')))).
  { unfold multigauss_learn. rewrite Ems, Ecols'. destruct cols' as [|x [|y l]]; cbn in Lc'; try reflexivity. exfalso. apply N1. symmetry. exact Lc'. }
  exists (mkMG ms' (CovMat (cov_matrix R_ops lower' upper' cols'))), (cov_matrix R_ops lower upper cols), (cov_matrix R_ops lower' upper' cols').
  split; [exact E'|]. split; [exact EC|]. split; [reflexivity|]. cbn [mg_means].
  apply means_from_ok in Ems as [Lms Hms]. split; [congruence|].
  assert (Nc : forall i, (i < nc)%nat -> nth i cols [] = map (fun r => nth i r 0) d) by (intros i Hi; exact (nth_tabulate nc (fun i => map (fun r => nth i r 0) d) i [] Hi)).
  assert (Nc' : forall i, (i < nc)%nat -> nth i cols' [] = map (fun v => a i * v + b i) (map (fun r => nth i r 0) d)).
  { intros i Hi. rewrite <- units_col by exact Hi. exact (nth_tabulate nc (fun i => map (fun r => nth i r 0) (map (units a b) d)) i [] Hi). }
  assert (Bd : forall lo up i j v, entry (cov_matrix R_ops lo up cols) i j = Some v -> (i < nc)%nat /\ (j < nc)%nat).
  { intros lo up i j v Hv. unfold entry, cov_matrix in Hv. rewrite Lc in Hv. destruct (nth_error (tabulate nc _) i) as [r|] eqn:Er; [|discriminate].
    assert (Hi : (i < nc)%nat) by (rewrite <- (tabulate_length nc (fun i => tabulate nc (fun j => if Nat.eqb i j then std R_ops (nth i cols []) else clamped_cov R_ops lo up (nth i cols []) (nth j cols [])))); apply nth_error_Some; congruence).
    split; [exact Hi|]. rewrite nth_error_tabulate in Er by exact Hi. assert (Er' : r = tabulate nc (fun j => if Nat.eqb i j then std R_ops (nth i cols []) else clamped_cov R_ops lo up (nth i cols []) (nth j cols []))) by congruence.
    rewrite Er' in Hv. rewrite <- (tabulate_length nc (fun j => if Nat.eqb i j then std R_ops (nth i cols []) else clamped_cov R_ops lo up (nth i cols []) (nth j cols []))). apply nth_error_Some. congruence. }
  split; [|split].
  - intros i m Hi. assert (Hn : (i < List.length (mg_means p))%nat) by (rewrite <- Lm; apply nth_error_Some; congruence).
    destruct (Hm i Hn) as (x & Hx & E1). destruct (Hms i) as (x' & Hx' & E1'); [lia|]. cbn [plus] in Hx'. rewrite E1'. unfold real_col in Hx, Hx'.
    specialize (W i Hn). destruct (Nat.ltb_spec i nc); [|lia]. assert (Ex : x = map (fun r => nth i r 0) d) by congruence. assert (Ex' : x' = map (fun r => nth i r 0) (map (units a b) d)) by congruence. subst x x'.
    rewrite Hi in E1. assert (Em : m = mean R_ops (map (fun r => nth i r 0) d)) by congruence. rewrite Em, units_col, !mean_avg, avg_affine by (assumption || apply col_some). reflexivity.
  - intros i j v Hne Hv. destruct (Bd _ _ _ _ _ Hv) as [Hi Hj]. rewrite entry_cov_matrix in Hv by lia. rewrite entry_cov_matrix by lia.
    destruct (Nat.eqb_spec i j) as [E|_]; [congruence|]. assert (Ev : v = clamped_cov R_ops lower upper (nth i cols []) (nth j cols [])) by congruence. rewrite Ev.
    f_equal. rewrite !Nc' by assumption. rewrite !Nc by assumption. destruct (Hc i j Hi Hj Hne) as (P & El & Eu). unfold clamped_cov.
    rewrite !lower_to_min, !raise_to_max, !cov_entry_sample by (rewrite ?map_length; exact N).
    rewrite sample_cov_affine by apply col_some. rewrite El, Eu, max_scale, min_scale by exact P. reflexivity.
  - intros i v Hv. destruct (Bd _ _ _ _ _ Hv) as [Hi _]. rewrite entry_cov_matrix in Hv by lia. rewrite entry_cov_matrix by lia. rewrite Nat.eqb_refl in *.
    assert (Ev : v = std R_ops (nth i cols [])) by congruence. rewrite Ev. f_equal. rewrite Nc', Nc by assumption. rewrite !std_pop. apply std_affine. apply col_some.
Qed.
End Rows.

Lemma pop_var_nonneg x : x <> [] -> 0 <= pop_var x.
Proof.
  intros H. unfold pop_var. apply Rmult_le_pos; [|left; apply Rinv_0_lt_compat, len_pos, H].
  generalize (avg x). intros v0. clear H. induction x as [|v x IH]; [cbn; lra|].
  cbn [map]. change (0 <= (v - v0) * (v - v0) + Rsum (map (fun v1 => (v1 - v0) * (v1 - v0)) x)).
  pose proof (Rle_0_sqr (v - v0)) as Q. unfold Rsqr in Q. lra.
Qed.

(** The diagonal does not follow: a variance would be multiplied by the square. *)
Lemma multigauss_units_diagonal c b lower upper lower' upper' nc (d : list (list R)) p p0 q q' C C' i :
  Forall (fun r => List.length r = nc) d -> (2 <= List.length d)%nat ->
  lower' = c * c * lower -> upper' = c * c * upper -> List.length (mg_means p0) = List.length (mg_means p) ->
  multigauss_learn R_ops lower upper nc (real_col nc d) p = (Ok tt, q) -> mg_cov q = CovMat C ->
  multigauss_learn R_ops lower' upper' nc (real_col nc (map (units (fun _ => c) b) d)) p0 = (Ok tt, q') -> mg_cov q' = CovMat C' ->
  c <> 0 -> Rabs c <> 1 -> (i < nc)%nat -> pop_var (map (fun r => nth i r 0) d) <> 0 ->
  exists v, entry C i i = Some v /\ entry C' i i <> Some (c * c * v).
Proof.
  intros Hr N El Eu L H EC H' EC' C0 C1 Hi Hv.
  assert (S : d <> []) by (destruct d; [cbn in N; lia|discriminate]).
  destruct (multigauss_units (fun _ => c) b nc d Hr S lower upper lower' upper' p p0 q) as (q2 & C2 & C2' & H2 & E1 & E2 & _ & _ & _ & D); [|exact L|exact N|exact H|].
  { intros _ _ _ _ _. split; [nra|]. split; assumption. }
  rewrite H' in H2. assert (q' = q2) by congruence. subst q2. assert (C2 = C) by congruence. assert (C2' = C') by congruence. subst C2 C2'.
  apply multigauss_ok in H as (_ & _ & _ & cols & Ecols & Lc & Ec).
  rewrite (cols_real d nc) in Ecols by (intros j Hj; apply in_seq in Hj; lia). assert (EC2 : C = cov_matrix R_ops lower upper cols) by congruence.
  exists (sqrt (pop_var (map (fun r => nth i r 0) d))).
  assert (E : entry C i i = Some (sqrt (pop_var (map (fun r => nth i r 0) d)))).
  { rewrite EC2, entry_cov_matrix by lia. rewrite Nat.eqb_refl, std_pop. assert (Ei : tabulate nc (fun i => map (fun r => nth i r 0) d) = cols) by (apply (f_equal (fun r => match r with Ok x => x | Raise _ => [] end)) in Ecols; exact Ecols). rewrite <- Ei.
    rewrite (nth_tabulate nc (fun i => map (fun r => nth i r 0) d) i []) by exact Hi. reflexivity. }
  split; [exact E|]. rewrite (D i _ E). intros Q. assert (Q' : Rabs c * sqrt (pop_var (map (fun r => nth i r 0) d)) = c * c * sqrt (pop_var (map (fun r => nth i r 0) d))) by congruence.
  assert (P : 0 <= pop_var (map (fun r => nth i r 0) d)) by (apply pop_var_nonneg, (col_some nc d Hr S)).
  assert (Z : sqrt (pop_var (map (fun r => nth i r 0) d)) <> 0) by (intros Z; apply Hv, sqrt_eq_0; assumption).
  apply Rmult_eq_reg_r in Q'; [|exact Z]. assert (Sq : c * c = Rabs c * Rabs c) by (unfold Rabs; destruct (Rcase_abs c); ring). rewrite Sq in Q'.
  assert (A0 : Rabs c <> 0) by (apply Rabs_no_R0, C0). apply C1. apply (Rmult_eq_reg_l (Rabs c)); [|exact A0]. lra.
Qed.
