(** Runs with additive costs. *)
From Coq Require Import String List ZArith Bool Lia Reals Lra.
From Flocq Require Import Core IEEE754.BinarySingleNaN.
From Verif Require Import PyBase B64 B64More NdArray Eda Spec LoopFail RandThms Models ModelThms ModelMore CatThms FloatSum Average Progress Demo DemoModels.
Import ListNotations.
Local Open Scope R_scope.

(** Two finite doubles with the same value. *)
Definition same_value (a b : f64) : bool := isfin a && isfin b && fle a b && fle b a.
Lemma same_value_R a b : same_value a b = true -> B2R a = B2R b.
Proof.
  unfold same_value. intros H. apply andb_prop in H as [H H4]. apply andb_prop in H as [H H3]. apply andb_prop in H as [H1 H2].
  apply Rle_antisym; apply fle_fin; assumption.
Qed.

Lemma abs_same x y : x = y -> Rabs (x - y) <= 0.
Proof. intros ->. rewrite Rminus_diag_eq by reflexivity. rewrite Rabs_R0. apply Rle_refl. Qed.

(** One variable of letters: an "a" costs 1, everything else 2. *)
Definition letter (v : cell) : f64 := match v with CS s => if String.eqb s "a" then Z2f 1 else Z2f 2 | _ => Z2f 2 end.
Definition letter_cost (r : row) : num := match r with v :: _ => NF (letter v) | _ => NF fnan end.
Definition letter_hooks : hooks unit (list arr) := scripted letter_cost 1.
Definition letters (l : list string) : arr := mkArr DObj 1%nat (map (fun s => [CS s]) l).
Definition letter_start : st unit (list arr) :=
  start tt [letters ["b"; "a"; "c"; "b"]; letters ["c"; "b"; "a"; "a"]; letters ["a"; "a"; "b"; "a"]; letters ["a"; "c"; "a"; "a"]; letters ["a"; "a"; "a"; "a"]]%string.
(** Strings need w_noise = -1. *)
Definition letter_cfg : cfg := conf 4 5 2 false None (Some (PyI (-1))).
Definition letter_w (_ : nat) (v : cell) : R := B2R (letter v).

Definition is_string (v : cell) : bool := match v with CS _ => true | _ => false end.

Lemma is_string_CS v : is_string v = true -> is_CS v.
Proof. destruct v; [discriminate|discriminate|intros _; exact I]. Qed.

Lemma letter_runs : argsort_ok (h_argsort letter_hooks) /\ (0 <= c_trunc_len letter_cfg)%Z /\ (0 <= c_elite_len letter_cfg)%Z /\
  exists r tr, executes letter_cfg letter_hooks ftol_default true letter_start (Ok r) tr /\ finite_costs (evaluated tr) /\
    (2 <= List.length (selections tr))%nat /\
    Forall (fun p => let train := fst p in train <> [] /\ (List.length train <= 4)%nat /\ additive_costs 1 letter_w 0 train /\
      (forall j, (j < 1)%nat -> discrete (column j (map fst train))) /\
      (forall j x, (j < 1)%nat -> In x (column j (map fst train)) -> Rabs (letter_w j x) <= 2)) (selections tr).
Proof.
  split; [apply argsort_ref_ok|]. split; [vm_compute; discriminate|]. split; [vm_compute; discriminate|].
  destruct (run_check_completes letter_cfg letter_hooks ftol_default true letter_start
    (fun _ tr => forallb (fun p => isfin (snd p)) (evaluated tr) && Nat.leb 2 (List.length (selections tr)) &&
       forallb (fun p => negb (Nat.eqb (List.length (fst p)) 0) && Nat.leb (List.length (fst p)) 4 &&
         forallb (fun q => is_string (nth 0 (fst q) (CF fnan)) && same_value (snd q) (letter (nth 0 (fst q) (CF fnan)))) (fst p)) (selections tr))) as (r & tr & H & K);
    [reflexivity|vm_compute; reflexivity|].
  apply andb_prop in K as [K K3]. apply andb_prop in K as [K1 K2]. exists r, tr.
  split; [exact H|]. split; [|split].
  - unfold finite_costs. apply Forall_forall. intros p Hp. rewrite forallb_forall in K1. apply (K1 p), Hp.
  - apply Nat.leb_le, K2.
  - apply Forall_forall. intros p Hp. rewrite forallb_forall in K3. specialize (K3 p Hp). apply andb_prop in K3 as [A C]. apply andb_prop in A as [A B].
    cbv zeta. rewrite forallb_forall in C. split; [|split; [|split; [|split]]].
    + intros E. apply (f_equal (@List.length _)) in E. cbn in E. apply negb_true_iff, Nat.eqb_neq in A. apply A, E.
    + apply Nat.leb_le, B.
    + apply Forall_forall. intros q Hq. specialize (C q Hq). apply andb_prop in C as [_ C]. apply same_value_R in C.
      apply abs_same, (eq_trans C). exact (eq_sym (Rplus_0_r _)).
    + intros j Hj. assert (j = 0%nat) by lia. subst j. left. unfold column. apply Forall_forall. intros v Hv. rewrite map_map in Hv. apply in_map_iff in Hv as (q & <- & Hq).
      specialize (C q Hq). apply andb_prop in C as [C _]. exact (is_string_CS _ C).
    + intros j x _ _. unfold letter_w, letter. destruct (Z2f_exact 1) as [E1 _]; [lia|]. destruct (Z2f_exact 2) as [E2 _]; [lia|].
      destruct x as [z|v|s]; [rewrite E2|rewrite E2|destruct (String.eqb s "a"); [rewrite E1|rewrite E2]]; rewrite Rabs_right; lra.
Qed.

(** One variable of numbers, which is the cost. *)
Definition id_k (_ : nat) : R := 1.
Definition id_k0 (_ : nat) : R := 0.
Lemma id_sum x : x = 1 * x + 0 + 0.
Proof. ring. Qed.
Lemma number_runs : argsort_ok (h_argsort demo_hooks) /\ (0 <= c_trunc_len demo_cfg)%Z /\ (0 <= c_elite_len demo_cfg)%Z /\
  adds seq_sum /\ isfin fone = true /\ B2R (Z2f 100) <= bpow radix2 400 /\ Rabs (id_k 0) <= 1 /\
  exists r tr, executes demo_cfg demo_hooks ftol_default true demo_start (Ok r) tr /\ finite_costs (evaluated tr) /\
    (2 <= List.length (selections tr))%nat /\
    Forall (fun p => let train := fst p in train <> [] /\ (List.length train <= 4)%nat /\ additive_costs 1 (linear id_k id_k0) 0 train /\
      (exists pm', unigauss_learn (b64_ops seq_sum) fone (num_col (mkArr DFloat 1 (map fst train))) [(Z2f 0, Z2f 0)] = (Ok tt, pm')) /\
      (forall j q, (j < 1)%nat -> In q train -> isfin (value (nth j (fst q) (CF fnan))) = true /\ Rabs (B2R (value (nth j (fst q) (CF fnan)))) <= B2R (Z2f 100))) (selections tr).
Proof.
  split; [apply argsort_ref_ok|]. split; [vm_compute; discriminate|]. split; [vm_compute; discriminate|].
  split; [exact seq_adds|]. split; [reflexivity|]. destruct (Z2f_exact 100) as [E100 F100]; [lia|]. split.
  { rewrite E100. apply (Rle_trans _ (bpow radix2 7)); [cbn; lra|apply bpow_le; lia]. }
  split; [unfold id_k; rewrite Rabs_R1; apply Rle_refl|].
  destruct (run_check_completes demo_cfg demo_hooks ftol_default true demo_start
    (fun _ tr => forallb (fun p => isfin (snd p)) (evaluated tr) && Nat.leb 2 (List.length (selections tr)) &&
       forallb (fun p => negb (Nat.eqb (List.length (fst p)) 0) && Nat.leb (List.length (fst p)) 4 &&
         is_ok (fst (unigauss_learn (b64_ops seq_sum) fone (num_col (mkArr DFloat 1 (map fst (fst p)))) [(Z2f 0, Z2f 0)])) &&
         forallb (fun q => same_value (snd q) (value (nth 0 (fst q) (CF fnan))) && isfin (Babs (value (nth 0 (fst q) (CF fnan)))) &&
           fle (Babs (value (nth 0 (fst q) (CF fnan)))) (Z2f 100)) (fst p)) (selections tr))) as (r & tr & H & K);
    [reflexivity|vm_compute; reflexivity|].
  apply andb_prop in K as [K K3]. apply andb_prop in K as [K1 K2]. exists r, tr.
  split; [exact H|]. split; [|split].
  - unfold finite_costs. apply Forall_forall. intros p Hp. rewrite forallb_forall in K1. apply (K1 p), Hp.
  - apply Nat.leb_le, K2.
  - apply Forall_forall. intros p Hp. rewrite forallb_forall in K3. specialize (K3 p Hp). apply andb_prop in K3 as [A C].
    apply andb_prop in A as [A D]. apply andb_prop in A as [A B].
    cbv zeta. rewrite forallb_forall in C. split; [|split; [|split; [|split]]].
    + intros E. apply (f_equal (@List.length _)) in E. cbn in E. apply negb_true_iff, Nat.eqb_neq in A. apply A, E.
    + apply Nat.leb_le, B.
    + apply Forall_forall. intros q Hq. specialize (C q Hq). apply andb_prop in C as [C _]. apply andb_prop in C as [C _]. apply same_value_R in C.
      apply abs_same, (eq_trans C). exact (id_sum _).
    + destruct (unigauss_learn (b64_ops seq_sum) fone (num_col (mkArr DFloat 1 (map fst (fst p)))) [(Z2f 0, Z2f 0)]) as [[[]|e] pm']; [|discriminate].
      exists pm'. reflexivity.
    + intros j q Hj Hq. assert (j = 0%nat) by lia. subst j. specialize (C q Hq). apply andb_prop in C as [C C3]. apply andb_prop in C as [C1 C2].
      split.
      * unfold same_value in C1. apply andb_prop in C1 as [C1 _]. apply andb_prop in C1 as [C1 _]. apply andb_prop in C1 as [_ C1]. exact C1.
      * apply (fle_fin _ _ C2 F100) in C3. rewrite B2R_Babs in C3. exact C3.
Qed.

(** One bit, which is the cost. *)
Definition bits (l : list Z) : arr := mkArr DInt 1%nat (map (fun z => [CI z]) l).
Definition bit_cfg : cfg := conf 4 5 2 false None None.
Definition bit_start : st unit (list arr) :=
  start tt [bits [1; 0; 1; 1]; bits [0; 1; 1; 0]; bits [1; 0; 1; 0]; bits [0; 0; 1; 0]; bits [0; 0; 0; 0]]%Z.
Definition bit_model : unibin := mkUB 1 quarter three_quarters [half].
Definition is_bit_row (r : row) : bool := match r with [CI 0] | [CI 1] => true | _ => false end.
Lemma is_bit_row_ok r : is_bit_row r = true -> bit_row 1 r.
Proof.
  destruct r as [|v r]; [discriminate|]. destruct v as [[|[q|q|]|q]|x|s]; try discriminate; (destruct r; [|discriminate]); intros _;
    (split; [reflexivity|]); constructor; [left; reflexivity|constructor|right; reflexivity|constructor].
Qed.

Lemma bit_runs : argsort_ok (h_argsort demo_hooks) /\ (0 <= c_trunc_len bit_cfg)%Z /\ (0 <= c_elite_len bit_cfg)%Z /\
  unibin_made 1 three_quarters quarter bit_model /\ prob quarter /\ prob three_quarters /\ Rabs (id_k 0) <= 1 /\
  exists r tr, executes bit_cfg demo_hooks ftol_default true bit_start (Ok r) tr /\ finite_costs (evaluated tr) /\
    (2 <= List.length (selections tr))%nat /\
    Forall (fun p => let train := fst p in train <> [] /\ (List.length train <= 4)%nat /\ additive_costs 1 (linear id_k id_k0) 0 train /\
      Forall (bit_row 1) (map fst train)) (selections tr).
Proof.
  split; [apply argsort_ref_ok|]. split; [vm_compute; discriminate|]. split; [vm_compute; discriminate|].
  split; [repeat split; vm_compute; reflexivity|]. split; [split; vm_compute; reflexivity|]. split; [split; vm_compute; reflexivity|].
  split; [unfold id_k; rewrite Rabs_R1; apply Rle_refl|].
  destruct (run_check_completes bit_cfg demo_hooks ftol_default true bit_start
    (fun _ tr => forallb (fun p => isfin (snd p)) (evaluated tr) && Nat.leb 2 (List.length (selections tr)) &&
       forallb (fun p => negb (Nat.eqb (List.length (fst p)) 0) && Nat.leb (List.length (fst p)) 4 &&
         forallb (fun q => same_value (snd q) (value (nth 0 (fst q) (CF fnan))) && is_bit_row (fst q)) (fst p)) (selections tr))) as (r & tr & H & K);
    [reflexivity|vm_compute; reflexivity|].
  apply andb_prop in K as [K K3]. apply andb_prop in K as [K1 K2]. exists r, tr.
  split; [exact H|]. split; [|split].
  - unfold finite_costs. apply Forall_forall. intros p Hp. rewrite forallb_forall in K1. apply (K1 p), Hp.
  - apply Nat.leb_le, K2.
  - apply Forall_forall. intros p Hp. rewrite forallb_forall in K3. specialize (K3 p Hp). apply andb_prop in K3 as [A C].
    apply andb_prop in A as [A B].
    cbv zeta. rewrite forallb_forall in C. split; [|split; [|split]].
    + intros E. apply (f_equal (@List.length _)) in E. cbn in E. apply negb_true_iff, Nat.eqb_neq in A. apply A, E.
    + apply Nat.leb_le, B.
    + apply Forall_forall. intros q Hq. specialize (C q Hq). apply andb_prop in C as [C _]. apply same_value_R in C.
      apply abs_same, (eq_trans C). exact (id_sum _).
    + apply Forall_forall. intros v Hv. apply in_map_iff in Hv as (q & <- & Hq). specialize (C q Hq). apply andb_prop in C as [_ C].
      exact (is_bit_row_ok _ C).
Qed.

(** Two variables of numbers, of which the first is the cost. *)
Definition two_cols (l : list (Z * Z)) : arr := mkArr DFloat 2%nat (map (fun p => [CF (Z2f (fst p)); CF (Z2f (snd p))]) l).
Definition pair_start : st unit (list arr) :=
  start tt [two_cols [(5, 1); (3, 2); (4, 2); (6, 1)]; two_cols [(2, 1); (6, 3); (7, 1); (4, 2)]; two_cols [(9, 1); (2, 2); (8, 3); (3, 5)];
            two_cols [(4, 1); (4, 2); (4, 3); (5, 1)]; two_cols [(7, 1); (3, 2); (4, 2); (5, 1)]]%Z.
Definition first_k (j : nat) : R := match j with O => 1 | _ => 0 end.
Definition multi_model : @mgauss f64 := mkMG [Z2f 0; Z2f 0] (CovScalar (Z2f 0)).
Lemma first_sum x y : x = 1 * x + 0 + (0 * y + 0 + 0).
Proof. ring. Qed.

Lemma pair_runs : argsort_ok (h_argsort demo_hooks) /\ (0 <= c_trunc_len demo_cfg)%Z /\ (0 <= c_elite_len demo_cfg)%Z /\
  adds seq_sum /\ B2R (Z2f 100) <= bpow radix2 400 /\ (forall j, (j < 2)%nat -> Rabs (first_k j) <= 1) /\ List.length (mg_means multi_model) = 2%nat /\
  exists r tr, executes demo_cfg demo_hooks ftol_default true pair_start (Ok r) tr /\ finite_costs (evaluated tr) /\
    (2 <= List.length (selections tr))%nat /\
    Forall (fun p => let train := fst p in train <> [] /\ (List.length train <= 4)%nat /\ additive_costs 2 (linear first_k id_k0) 0 train /\
      (exists p', multigauss_learn (b64_ops seq_sum) fone (Z2f 8) 2 (num_col (mkArr DFloat 2 (map fst train))) multi_model = (Ok tt, p')) /\
      (forall j q, (j < 2)%nat -> In q train -> isfin (value (nth j (fst q) (CF fnan))) = true /\ Rabs (B2R (value (nth j (fst q) (CF fnan)))) <= B2R (Z2f 100))) (selections tr).
Proof.
  split; [apply argsort_ref_ok|]. split; [vm_compute; discriminate|]. split; [vm_compute; discriminate|].
  split; [exact seq_adds|]. destruct (Z2f_exact 100) as [E100 F100]; [lia|]. split.
  { rewrite E100. apply (Rle_trans _ (bpow radix2 7)); [cbn; lra|apply bpow_le; lia]. }
  split; [intros [|j] _; unfold first_k; [rewrite Rabs_R1|rewrite Rabs_R0]; lra|]. split; [reflexivity|].
  destruct (run_check_completes demo_cfg demo_hooks ftol_default true pair_start
    (fun _ tr => forallb (fun p => isfin (snd p)) (evaluated tr) && Nat.leb 2 (List.length (selections tr)) &&
       forallb (fun p => negb (Nat.eqb (List.length (fst p)) 0) && Nat.leb (List.length (fst p)) 4 &&
         is_ok (fst (multigauss_learn (b64_ops seq_sum) fone (Z2f 8) 2 (num_col (mkArr DFloat 2 (map fst (fst p)))) multi_model)) &&
         forallb (fun q => same_value (snd q) (value (nth 0 (fst q) (CF fnan))) &&
           forallb (fun j => isfin (value (nth j (fst q) (CF fnan))) && isfin (Babs (value (nth j (fst q) (CF fnan)))) &&
             fle (Babs (value (nth j (fst q) (CF fnan)))) (Z2f 100)) (seq 0 2)) (fst p)) (selections tr))) as (r & tr & H & K);
    [reflexivity|vm_compute; reflexivity|].
  apply andb_prop in K as [K K3]. apply andb_prop in K as [K1 K2]. exists r, tr.
  split; [exact H|]. split; [|split].
  - unfold finite_costs. apply Forall_forall. intros p Hp. rewrite forallb_forall in K1. apply (K1 p), Hp.
  - apply Nat.leb_le, K2.
  - apply Forall_forall. intros p Hp. rewrite forallb_forall in K3. specialize (K3 p Hp). apply andb_prop in K3 as [A C].
    apply andb_prop in A as [A D]. apply andb_prop in A as [A B].
    cbv zeta. rewrite forallb_forall in C. split; [|split; [|split; [|split]]].
    + intros E. apply (f_equal (@List.length _)) in E. cbn in E. apply negb_true_iff, Nat.eqb_neq in A. apply A, E.
    + apply Nat.leb_le, B.
    + apply Forall_forall. intros q Hq. specialize (C q Hq). apply andb_prop in C as [C _]. apply same_value_R in C.
      apply abs_same, (eq_trans C). exact (first_sum _ (B2R (value (nth 1 (fst q) (CF fnan))))).
    + destruct (multigauss_learn (b64_ops seq_sum) fone (Z2f 8) 2 (num_col (mkArr DFloat 2 (map fst (fst p)))) multi_model) as [[[]|e] p']; [|discriminate].
      exists p'. reflexivity.
    + intros j q Hj Hq. specialize (C q Hq). apply andb_prop in C as [_ C]. rewrite forallb_forall in C.
      assert (Hin : In j (seq 0 2)) by (apply in_seq; lia). specialize (C j Hin). apply andb_prop in C as [C C3]. apply andb_prop in C as [C1 C2].
      split; [exact C1|]. apply (fle_fin _ _ C2 F100) in C3. rewrite B2R_Babs in C3. exact C3.
Qed.
