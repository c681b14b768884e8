(** C109: learning from identical individuals. *)
From Coq Require Import String List ZArith Bool Reals.
From Flocq Require Import Core IEEE754.BinarySingleNaN.
From Verif Require Import PyBase B64 B64More NdArray Rand RandThms Models ModelThms ModelMore CatThms FloatSum FloatMean Constant Demo DemoModels.
Import ListNotations.
Open Scope R_scope.

(* ------------------------------ C109 ----------------------------- *)
(** Exact arithmetic: [n] rows [r]. *)
Theorem C109_unigauss : forall lower r n pm,
  unigauss_learn R_ops lower (real_col (List.length pm) (repeat r (S n))) pm =
  (Ok tt, tabulate (List.length pm) (fun i => (nth i r 0, Rmax lower 0))).
Proof. exact unigauss_const. Qed.
Print Assumptions C109_unigauss.

Theorem C109_adapt : forall lower alpha r n pm,
  adapt_learn R_ops lower alpha (real_col (List.length pm) (repeat r (S (S n)))) pm =
  (Ok tt, tabulate (List.length pm) (fun i => (nth i r 0, Rmax lower 0))).
Proof. exact adapt_const. Qed.
Print Assumptions C109_adapt.

Theorem C109_multigauss : forall lower upper r n nc means cov (several : (2 <= nc)%nat) (one_each : List.length means = nc),
  multigauss_learn R_ops lower upper nc (real_col nc (repeat r (S n))) (mkMG means cov) =
  (Ok tt, mkMG (tabulate nc (fun i => nth i r 0))
               (CovMat (tabulate nc (fun i => tabulate nc (fun j => if Nat.eqb i j then 0 else Rmin upper (Rmax lower 0)))))).
Proof. exact multigauss_const. Qed.
Print Assumptions C109_multigauss.

(** Bits and categories, in doubles. *)
Theorem C109_unibin : forall n upper lower m dt (r : row) k
  (made : unibin_made n upper lower m) (bits : bit_row n r) (rows : (Z.of_nat (S k) <= 2 ^ 53)%Z),
  exists m', unibin_learn (mkArr dt n (repeat r (S k))) m = (Ok tt, m') /\ List.length (ub_pm m') = n /\
    forall j b, nth_error r j = Some (CI b) -> exists p, nth_error (ub_pm m') j = Some p /\ clamped lower upper (Z2f b) p.
Proof. exact unibin_const. Qed.
Print Assumptions C109_unibin.

Theorem C109_categories : forall dt n (r : row) k t
  (width : List.length r = n) (one_each : List.length t = n) (no_nan : Forall (fun c => cell_eqb c c = true) r) (rows : (Z.of_nat (S k) <= 2 ^ 53)%Z),
  cat_learn (mkArr dt n (repeat r (S k))) t = (Ok tt, map (fun c => Some [(c, fone)]) r).
Proof. exact cat_const. Qed.
Print Assumptions C109_categories.

(** and every individual drawn from that table is the same again. *)
Theorem C109_categories_drawn : forall (W : Type) (g : rng W) str_of (r : row) size w
  (uniform : unif_ok g) (sizes : (0 <= size)%Z) (some_variable : r <> []) (strings : Forall (fun c => is_str c = true) r),
  exists a w', cat_sample g str_of (map (fun c => Some [(c, fone)]) r) size w = (Ok a, w') /\
    a_nc a = List.length r /\ a_rows a = repeat r (Z.to_nat size).
Proof. exact (fun W => @cat_sample_const W). Qed.
Print Assumptions C109_categories_drawn.

(** Gaussians in doubles: exact when the value has bits to spare for the number of rows. *)
Theorem C109_float : forall (s : list f64 -> f64) lower (col : nat -> res (list f64)) pm pm' i (x : list f64) m e q
  (any_order : forall l, added l (s l))
  (bound_finite : isfin lower = true)
  (learned : unigauss_learn (b64_ops s) lower col pm = (Ok tt, pm'))
  (variable : nth_error pm' i = Some q)
  (selected : col i = Ok x)
  (some_rows : x <> [])
  (rows : (Z.of_nat (List.length x) < 2 ^ 53)%Z)
  (bits_to_spare : (Z.abs m * Z.of_nat (List.length x) < 2 ^ 53)%Z)
  (exponent : (-1074 <= e <= 900)%Z)
  (identical : forall v, In v x -> isfin v = true /\ B2R v = IZR m * bpow radix2 e),
  B2R (fst q) = IZR m * bpow radix2 e /\ B2R (snd q) = Rmax (B2R lower) 0.
Proof. exact unigauss_multiple. Qed.
Print Assumptions C109_float.

(** Six individuals 0.1, added one after another as numpy adds fewer than eight numbers: the
    learned mean is less than 0.1, and the deviation is not zero. *)
Theorem C109_float_refuted : exists v q, feq v (lit 3602879701896397 (-55)) = true /\
  unigauss_learn (b64_ops seq_sum) (Z2f 0) (num_col (mkArr DFloat 1 (repeat [CF v] 6))) [(Z2f 0, Z2f 0)] = (Ok tt, [q]) /\
  flt (fst q) v = true /\ flt (Z2f 0) (snd q) = true.
Proof. exact tenth_six. Qed.
Print Assumptions C109_float_refuted.

Example C109_met : unibin_made 2 three_quarters quarter demo_unibin /\ bit_row 2 [CI 0%Z; CI 1%Z] /\
  Forall (fun c => cell_eqb c c = true) [CS "a"; CI 3] /\ unif_ok demo_rng /\ (forall l, added l (seq_sum l)) /\
  (exists q, unigauss_learn (b64_ops seq_sum) (Z2f 0) (num_col (mkArr DFloat 1 (repeat [CF (lit 3 (-2))] 5))) [(Z2f 0, Z2f 0)] = (Ok tt, [q]) /\
     feq (fst q) (lit 3 (-2)) = true /\ feq (snd q) (Z2f 0) = true).
Proof.
  split; [exact demo_unibin_made|]. split; [split; [reflexivity|constructor; [left; reflexivity|constructor; [right; reflexivity|constructor]]]|]. split; [repeat constructor|].
  split; [exact demo_unif_ok|]. split; [exact seq_adds|]. eexists. split; [reflexivity|]. split; vm_compute; reflexivity.
Qed.
