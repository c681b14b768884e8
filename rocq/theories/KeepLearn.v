(** Learning from some of the variables. *)
From Coq Require Import String List ZArith Bool Lia Permutation.
From Verif Require Import PyBase B64 B64More NdArray Eda EdaInv Rand Models Inits Stock Spec LoopObs LoopRel OrderRel LoopMap LoopKeep VarOrder VarLearn VarKeep.
Import ListNotations.
Open Scope nat_scope.

Section Learn.
Variables (n : nat) (sigma : list nat).
Local Notation k := (List.length sigma).
Hypothesis Hs : Forall (fun j => j < n) sigma.
Local Notation sel := (VarOrder.sel sigma).

Lemma matrix_keep d : a_nc d = n -> number_matrix d -> arr_keep (Ro n sigma) (wo n sigma) d (keep_arr (only_row n sigma) k d).
Proof.
  intros Hn Hd. split; [reflexivity|]. split; [split; [exact Hn|reflexivity]|]. cbn [keep_arr a_rows]. unfold number_matrix in Hd. rewrite Hn in Hd.
  induction Hd as [|r rs [R1 R2] Hrs IH]; cbn [map]; [constructor|]. constructor; [|exact IH].
  split; [exact R1|]. split; [exact R2|]. exact (only_sel n sigma (CF fnan) r R1).
Qed.

Lemma multigauss_kept s lo hi d ms c ms1 M : NoDup sigma -> 2 <= k -> a_nc d = n -> number_matrix d -> List.length ms = n ->
  multigauss_learn (b64_ops s) lo hi n (num_col d) (mkMG ms c) = (Ok tt, mkMG ms1 (CovMat M)) ->
  forall ms' c', List.length ms' = k ->
  multigauss_learn (b64_ops s) lo hi k (num_col (keep_arr (only_row n sigma) k d)) (mkMG ms' c') =
    (Ok tt, mkMG (sel fnan ms1) (CovMat (sel [] (map (sel fnan) M)))).
Proof.
  intros Hnd Hk Hn Hd L H ms' c' L'. pose proof (matrix_keep d Hn Hd) as HR.
  rewrite (multigauss_tab n (seq 0 n) (Permutation_refl _) (b64_ops s) lo hi (num_col d) (vcol d) ms c L) in H by (intros j Hj; exact (col_full n sigma d _ j HR Hj)).
  rewrite (multigauss_tab k (seq 0 k) (Permutation_refl _) (b64_ops s) lo hi _ (fun j => vcol d (nth j sigma 0)) ms' c' L')
    by (intros j Hj; exact (col_only n sigma Hs d _ j HR Hj)).
  destruct (Nat.eqb_spec k 1) as [|_]; [lia|]. destruct (Nat.eqb n 1); [discriminate H|].
  set (f := fun i j => if Nat.eqb i j then std (b64_ops s) (vcol d i) else clamped_cov (b64_ops s) lo hi (vcol d i) (vcol d j)) in *.
  assert (E1 : ms1 = tabulate n (fun j => mean (b64_ops s) (vcol d j))) by (symmetry; exact (f_equal (fun p => mg_means (snd p)) H)).
  assert (E2 : M = tabulate n (fun i => tabulate n (f i))) by (symmetry; exact (f_equal (fun p => match mg_cov (snd p) with CovMat q => q | CovScalar _ => [] end) H)). subst ms1 M. clear H. f_equal. f_equal.
  - apply (sel_tabulate n sigma Hs fnan (fun j => mean (b64_ops s) (vcol d j))). reflexivity.
  - f_equal. rewrite (sel_map n sigma Hs (sel fnan) [] []) by apply tabulate_length.
    rewrite <- (sel_tabulate n sigma Hs [] (fun i => tabulate n (f i)) (fun i => tabulate n (f (nth i sigma 0))) (fun _ _ => eq_refl)).
    unfold tabulate at 3. rewrite map_map. unfold tabulate at 1. apply map_ext_in. intros i Hi. apply in_seq in Hi.
    apply (sel_tabulate n sigma Hs fnan (f (nth i sigma 0))). intros j Hj. unfold f.
    destruct (Nat.eqb_spec i j) as [->|D]; [rewrite Nat.eqb_refl; reflexivity|].
    destruct (Nat.eqb_spec (nth i sigma 0) (nth j sigma 0)) as [Es|]; [|reflexivity].
    exfalso. apply D. apply (proj1 (NoDup_nth sigma 0) Hnd); [lia|lia|exact Es].
Qed.

Lemma cat_kept d t t1 : a_nc d = n -> Forall (fun r => List.length r = n) (a_rows d) -> List.length t = n ->
  cat_learn d t = (Ok tt, t1) -> forall t', List.length t' = k ->
  cat_learn (keep_arr (only_row n sigma) k d) t' = (Ok tt, sel None t1).
Proof.
  intros Hn Hd L H t' L'. unfold cat_learn in *. destruct (cat_untab d t t1 0 H) as [L1 K]. cbn [plus] in K. rewrite L in L1, K.
  assert (C : forall j, j < k -> cell_col (keep_arr (only_row n sigma) k d) j = cell_col d (nth j sigma 0)).
  { intros j Hj. pose proof (only_lt n sigma Hs j Hj) as Hk'. unfold cell_col. cbn [keep_arr a_nc a_rows]. rewrite Hn.
    destruct (Nat.ltb_spec j k) as [_|]; [|lia]. destruct (Nat.ltb_spec (nth j sigma 0) n) as [_|]; [|lia]. f_equal. rewrite map_map.
    clear -Hs Hd Hj. induction Hd as [|r rs Hr Hrs IH]; cbn [map]; [reflexivity|]. rewrite IH. f_equal.
    unfold only_row. rewrite (only_sel n sigma) by exact Hr. apply (sel_nth sigma), Hj. }
  set (x := fun j => match nth (nth j sigma 0) t1 None with Some p => p | None => [] end).
  rewrite (cat_tab _ _ x 0).
  - f_equal. rewrite L'. fold (tabulate k (fun j => Some (x j))).
    apply (sel_intro sigma); [apply tabulate_length|]. intros j Hj. rewrite nth_tabulate by exact Hj. unfold x.
    destruct (K (nth j sigma 0) (only_lt n sigma Hs j Hj)) as (p & E & _). rewrite E. reflexivity.
  - rewrite L'. cbn [plus]. intros j Hj. rewrite (C j Hj). unfold x.
    destruct (K (nth j sigma 0) (only_lt n sigma Hs j Hj)) as (p & E & Ep). rewrite E. exact Ep.
Qed.
End Learn.
