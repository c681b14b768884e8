(** Learning from a data set whose variables are in another order; the runs of VarRun.v put together. *)
From Coq Require Import String List ZArith Bool Lia Permutation.
From Verif Require Import PyBase B64 B64More NdArray Eda EdaInv Rand Models Inits Stock Spec LoopObs LoopRel OrderRel LoopMap VarOrder VarRun.
Import ListNotations.
Open Scope nat_scope.

(** A covariance matrix with rows and columns in the order [sigma]. *)
Definition reorder_cov {T} (d : T) (sigma : list nat) (c : covm (T := T)) : covm (T := T) :=
  match c with
  | CovScalar x => CovScalar x
  | CovMat m => CovMat (reorder sigma [] (map (reorder sigma d) m))
  end.

Lemma matrix_rel n sigma d : Permutation sigma (seq 0 n) -> a_nc d = n -> number_matrix d ->
  arr_rel (Rr n sigma) (wid n) d (map_arr (reorder_row sigma) d).
Proof.
  intros Hs Hn Hd. split; [reflexivity|]. split; [split; [reflexivity|exact Hn]|]. cbn [map_arr a_rows]. unfold number_matrix in Hd. rewrite Hn in Hd.
  induction Hd as [|r rs [R1 R2] Hrs IH]; cbn [map]; [constructor|]. constructor; [|exact IH].
  split; [exact R1|]. split; [exact R2|]. exact (reorder_sel n sigma Hs (CF fnan) r R1).
Qed.

Lemma tabulate_ext {A} m (f h : nat -> A) : (forall i, i < m -> f i = h i) -> tabulate m f = tabulate m h.
Proof. intros H. unfold tabulate. apply map_ext_in. intros i Hi. apply in_seq in Hi. apply H. lia. Qed.

Section Learn.
Variables (n : nat) (sigma : list nat).
Hypothesis Hs : Permutation sigma (seq 0 n).

Lemma means_tab {T} (o : ops T) col (x : nat -> list T) ms : forall i,
  (forall k, k < List.length ms -> col (i + k) = Ok (x (i + k))) ->
  means_from o col i ms = (Ok tt, map (fun k => mean o (x k)) (seq i (List.length ms))).
Proof.
  induction ms as [|m ms IH]; intros i H; cbn [means_from List.length seq map]; [reflexivity|].
  pose proof (H 0 ltac:(cbn; lia)) as H0. rewrite Nat.add_0_r in H0. rewrite H0, IH; [reflexivity|].
  intros k Hk. specialize (H (S k) ltac:(cbn; lia)). replace (i + S k) with (S i + k) in H by lia. exact H.
Qed.
Lemma cols_tab {T} col (x : nat -> list T) m : forall i, (forall k, k < m -> col (i + k) = Ok (x (i + k))) ->
  rmapM col (seq i m) = Ok (map x (seq i m)).
Proof.
  induction m as [|m IH]; intros i H; cbn [seq rmapM map]; [reflexivity|].
  pose proof (H 0 ltac:(lia)) as H0. rewrite Nat.add_0_r in H0. rewrite H0, IH; [reflexivity|].
  intros k Hk. specialize (H (S k) ltac:(lia)). replace (i + S k) with (S i + k) in H by lia. exact H.
Qed.
Lemma multigauss_tab {T} (o : ops T) lo hi col (x : nat -> list T) ms c : List.length ms = n ->
  (forall k, k < n -> col k = Ok (x k)) ->
  multigauss_learn o lo hi n col (mkMG ms c) =
    if Nat.eqb n 1 then (Raise ValueError, mkMG (tabulate n (fun k => mean o (x k))) (CovScalar (clamped_cov o lo hi (x 0) (x 0))))
    else (Ok tt, mkMG (tabulate n (fun k => mean o (x k)))
                      (CovMat (tabulate n (fun i => tabulate n (fun j => if Nat.eqb i j then std o (x i) else clamped_cov o lo hi (x i) (x j)))))).
Proof.
  intros L H. unfold multigauss_learn. cbn [mg_means mg_cov].
  rewrite (means_tab o col x ms 0) by (intros k Hk; apply H; lia). rewrite (cols_tab col x n 0) by (intros k Hk; apply H; lia). rewrite L.
  fold (tabulate n x). destruct n as [|[|m]] eqn:En; [reflexivity|reflexivity|]. rewrite <- En in *.
  assert (EM : cov_matrix o lo hi (tabulate n x) = tabulate n (fun i => tabulate n (fun j => if Nat.eqb i j then std o (x i) else clamped_cov o lo hi (x i) (x j)))).
  { unfold cov_matrix. rewrite tabulate_length. apply tabulate_ext. intros i Hi. apply tabulate_ext. intros j Hj.
    rewrite !nth_tabulate by assumption. reflexivity. }
  rewrite <- EM. rewrite En. cbn [Nat.eqb]. rewrite <- En. destruct (tabulate n x) as [|x0 [|x1 l]] eqn:Et.
  - apply (f_equal (@List.length _)) in Et. rewrite tabulate_length in Et. cbn in Et. lia.
  - apply (f_equal (@List.length _)) in Et. rewrite tabulate_length in Et. cbn in Et. lia.
  - reflexivity.
Qed.
Lemma eqb_sigma i j : i < n -> j < n -> Nat.eqb i j = Nat.eqb (nth i sigma 0) (nth j sigma 0).
Proof.
  intros Hi Hj. destruct (Nat.eqb_spec i j) as [->|D]; [symmetry; apply Nat.eqb_refl|].
  destruct (Nat.eqb_spec (nth i sigma 0) (nth j sigma 0)) as [Es|]; [|reflexivity]. exfalso. apply D.
  assert (Hnd : NoDup sigma) by (apply (Permutation_NoDup (Permutation_sym Hs)), seq_NoDup).
  pose proof (sigma_len n sigma Hs) as L. apply (proj1 (NoDup_nth sigma 0) Hnd); [lia|lia|exact Es].
Qed.
Lemma multigauss_both {T} (o : ops T) (d : T) lo hi col col' (x : nat -> list T) ms c : List.length ms = n ->
  (forall k, k < n -> col k = Ok (x k)) -> (forall k, k < n -> col' k = Ok (x (nth k sigma 0))) ->
  exists r ms1 c1, multigauss_learn o lo hi n col (mkMG ms c) = (r, mkMG ms1 c1) /\
    multigauss_learn o lo hi n col' (mkMG (reorder sigma d ms) (reorder_cov d sigma c)) = (r, mkMG (reorder sigma d ms1) (reorder_cov d sigma c1)).
Proof.
  intros L H H'. rewrite (multigauss_tab o lo hi col x ms c L H).
  rewrite (multigauss_tab o lo hi col' (fun k => x (nth k sigma 0)) _ _ (eq_trans (reorder_len sigma d ms) L) H').
  assert (EM : tabulate n (fun k => mean o (x (nth k sigma 0))) = reorder sigma d (tabulate n (fun k => mean o (x k)))).
  { rewrite (reorder_sel n sigma Hs) by apply tabulate_length. apply (sel_tabulate n sigma Hs d (fun k => mean o (x k))). reflexivity. }
  destruct (Nat.eqb_spec n 1) as [E1|E1].
  - eexists _, _, _. split; [reflexivity|]. rewrite <- EM. cbn [reorder_cov].
    pose proof (sigma_lt n sigma Hs 0 ltac:(lia)) as S0. replace (nth 0 sigma 0) with 0 by lia. reflexivity.
  - eexists _, _, _. split; [reflexivity|]. rewrite <- EM. cbn [reorder_cov]. f_equal. f_equal. f_equal.
    rewrite (reorder_sel n sigma Hs) by (rewrite map_length; apply tabulate_length).
    set (f := fun i j => if Nat.eqb i j then std o (x i) else clamped_cov o lo hi (x i) (x j)).
    assert (Em : map (reorder sigma d) (tabulate n (fun i => tabulate n (f i))) = tabulate n (fun i => sel sigma d (tabulate n (f i)))).
    { unfold tabulate at 1. rewrite map_map. apply map_ext. intros i. apply (reorder_sel n sigma Hs), tabulate_length. }
    match goal with |- _ = sel _ _ (map _ (tabulate n ?h)) => change h with (fun i => tabulate n (f i)) end. rewrite Em. apply (sel_tabulate n sigma Hs [] (fun i => sel sigma d (tabulate n (f i)))).
    intros k Hk. apply (sel_tabulate n sigma Hs d (f (nth k sigma 0))). intros j Hj. unfold f. rewrite <- eqb_sigma by assumption. reflexivity.
Qed.

Lemma multigauss_reorder s lo hi d ms c : a_nc d = n -> number_matrix d -> List.length ms = n ->
  exists r ms1 c1, multigauss_learn (b64_ops s) lo hi (a_nc d) (num_col d) (mkMG ms c) = (r, mkMG ms1 c1) /\
    multigauss_learn (b64_ops s) lo hi (a_nc d) (num_col (map_arr (reorder_row sigma) d)) (mkMG (reorder sigma fnan ms) (reorder_cov fnan sigma c))
      = (r, mkMG (reorder sigma fnan ms1) (reorder_cov fnan sigma c1)).
Proof.
  intros Hn Hd L. pose proof (matrix_rel n sigma d Hs Hn Hd) as HR. rewrite Hn.
  apply (multigauss_both (b64_ops s) fnan lo hi _ _ (vcol d) ms c L).
  - intros k Hk. exact (num_col_left n sigma d _ k HR Hk).
  - intros k Hk. exact (num_col_right n sigma Hs d _ k HR Hk).
Qed.

Lemma cat_tab d t (x : nat -> list (cell * f64)) : forall i,
  (forall k, k < List.length t -> rbind (cell_col d (i + k)) obtain_probabilities = Ok (x (i + k))) ->
  cat_learn_from d i t = (Ok tt, map (fun k => Some (x k)) (seq i (List.length t))).
Proof.
  induction t as [|e t IH]; intros i H; cbn [cat_learn_from List.length seq map]; [reflexivity|].
  pose proof (H 0 ltac:(cbn; lia)) as H0. rewrite Nat.add_0_r in H0. rewrite H0, IH; [reflexivity|].
  intros k Hk. specialize (H (S k) ltac:(cbn; lia)). replace (i + S k) with (S i + k) in H by lia. exact H.
Qed.
Lemma cat_untab d t t1 : forall i, cat_learn_from d i t = (Ok tt, t1) ->
  List.length t1 = List.length t /\
  forall k, k < List.length t -> exists p, nth k t1 None = Some p /\ rbind (cell_col d (i + k)) obtain_probabilities = Ok p.
Proof.
  revert t1. induction t as [|e t IH]; intros t1 i H; cbn [cat_learn_from] in H.
  - injection H as <-. split; [reflexivity|]. cbn. lia.
  - destruct (rbind (cell_col d i) obtain_probabilities) as [p|ex] eqn:Ep; [|discriminate H].
    destruct (cat_learn_from d (S i) t) as [r t2] eqn:Et. injection H as -> <-. destruct (IH _ _ Et) as [L K].
    split; [cbn; lia|]. intros [|k] Hk.
    + exists p. rewrite Nat.add_0_r. split; [reflexivity|exact Ep].
    + destruct (K k) as (q & Q1 & Q2); [cbn in Hk; lia|]. exists q. split; [exact Q1|]. replace (i + S k) with (S i + k) by lia. exact Q2.
Qed.
Lemma cat_reorder d t t1 : a_nc d = n -> Forall (fun r => List.length r = n) (a_rows d) -> List.length t = n ->
  cat_learn d t = (Ok tt, t1) ->
  cat_learn (map_arr (reorder_row sigma) d) (reorder sigma None t) = (Ok tt, reorder sigma None t1).
Proof.
  intros Hn Hd L H. unfold cat_learn in *. destruct (cat_untab d t t1 0 H) as [L1 K]. cbn [plus] in K. rewrite L in L1, K.
  assert (C : forall k, k < n -> cell_col (map_arr (reorder_row sigma) d) k = cell_col d (nth k sigma 0)).
  { intros k Hk. pose proof (sigma_lt n sigma Hs k Hk) as Hk'. unfold cell_col. cbn [map_arr a_nc a_rows]. rewrite Hn.
    destruct (Nat.ltb_spec k n) as [_|]; [|lia]. destruct (Nat.ltb_spec (nth k sigma 0) n) as [_|]; [|lia]. f_equal. rewrite map_map.
    clear -Hs Hd Hk. induction Hd as [|r rs Hr Hrs IH]; cbn [map]; [reflexivity|]. rewrite IH. f_equal.
    unfold reorder_row. rewrite (reorder_sel n sigma Hs) by exact Hr. apply (sel_nth n sigma Hs), Hk. }
  set (x := fun k => match nth (nth k sigma 0) t1 None with Some p => p | None => [] end).
  rewrite (cat_tab _ _ x 0).
  - f_equal. rewrite (reorder_len sigma), L. rewrite (reorder_sel n sigma Hs) by exact L1. fold (tabulate n (fun k => Some (x k))).
    apply (sel_intro n sigma Hs); [apply tabulate_length|]. intros k Hk. rewrite nth_tabulate by exact Hk. unfold x.
    destruct (K (nth k sigma 0) (sigma_lt n sigma Hs k Hk)) as (p & E & _). rewrite E. reflexivity.
  - rewrite (reorder_len sigma), L. cbn [plus]. intros k Hk. rewrite (C k Hk). unfold x.
    destruct (K (nth k sigma 0) (sigma_lt n sigma Hs k Hk)) as (p & E & Ep). rewrite E. exact Ep.
Qed.
End Learn.

(* ---------------- the statements ---------------- *)
(** Both constructions fail alike, or the second run is the first with every individual changed. *)
Definition mapped_outcome {X W} (f : row -> row) (r r' : res (optimiser X)) (m m' : optimiser X -> res result * st (pmstate X) W) : Prop :=
  match r, r' with
  | Ok o, Ok o' => mapped_run f (m o) (m' o')
  | Raise e, Raise e' => e = e'
  | _, _ => False
  end.

Section All.
Context {X W : Type}.
Variables (E : env X W) (g' : rng W) (sigma : list nat) (a : args) (cost cost' : row -> W -> res num * W).
Let n := Z.to_nat (g_nvars a).
Hypothesis Hs : Permutation sigma (seq 0 n).
Hypothesis Hg : draws_follow sigma (e_rng E) g'.
Hypothesis Hd : forall d, g_init_data a = Some d -> number_matrix d.
Hypothesis Hc : forall r w, List.length r = n -> cost' (reorder_row sigma r) w = cost r w.

Lemma built_outcome r r' ftol out w : built n sigma r r' ->
  mapped_outcome (reorder_row sigma) r r' (fun o => run E o cost ftol out w) (fun o => run (with_rng E g') o cost' ftol out w).
Proof.
  intros H. unfold built in H. destruct r as [o|e], r' as [o'|e']; cbn in H |- *; try contradiction; [|exact H].
  exact (run_rel n sigma Hs E g' Hg o o' cost cost' ftol out w H Hc).
Qed.
Lemma umdac_reorder lo hi v lf wn ftol out w :
  mapped_outcome (reorder_row sigma) (umdac_new a lo hi v lf wn)
    (umdac_new (reorder_args sigma a) (reorder_bound sigma lo) (reorder_bound sigma hi) (option_map (map (reorder sigma fnan)) v) lf wn)
    (fun o => run E o cost ftol out w) (fun o => run (with_rng E g') o cost' ftol out w).
Proof. apply built_outcome. apply (umdac_built n sigma Hs a eq_refl Hd). Qed.
Lemma pbil_reorder lo hi v lf wn ftol out w :
  mapped_outcome (reorder_row sigma) (pbil_new a lo hi v lf wn)
    (pbil_new (reorder_args sigma a) (reorder_bound sigma lo) (reorder_bound sigma hi) (option_map (map (reorder sigma fnan)) v) lf wn)
    (fun o => run E o cost ftol out w) (fun o => run (with_rng E g') o cost' ftol out w).
Proof. apply built_outcome. apply (pbil_built n sigma Hs a eq_refl Hd). Qed.
Lemma umdad_reorder v lower upper ftol out w : (forall p, v = Some p -> List.length p = n) ->
  mapped_outcome (reorder_row sigma) (umdad_new a v lower upper)
    (umdad_new (reorder_args sigma a) (option_map (reorder sigma fnan) v) lower upper)
    (fun o => run E o cost ftol out w) (fun o => run (with_rng E g') o cost' ftol out w).
Proof. intros Hv. apply built_outcome. apply (umdad_built n sigma Hs a eq_refl Hd v lower upper Hv). Qed.
End All.
