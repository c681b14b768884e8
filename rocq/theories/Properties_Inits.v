(** Properties of the initialisers, for all arguments and all random draws. *)
From Coq Require Import String List ZArith Bool Lia Reals Lra.
From Flocq Require Import Core IEEE754.BinarySingleNaN.
From Verif Require Import PyBase B64 B64More NdArray Rand RandThms Models Inits ModelThms Kahan CatThms InitThms InitGauss DemoModels InitProps.
Import ListNotations.
Open Scope nat_scope.

(* ------------------------------ C48 ------------------------------ *)
Theorem C48_uniform : forall W (g : rng W) (n : nat) lo hi u size w,
  unif_ok g -> uniform_new (Z.of_nat n) lo hi = Ok u -> full_bound n lo -> full_bound n hi -> 0 < n ->
  (forall j l h, j < n -> bound_of lo j l -> bound_of hi j h -> isfin l = true /\ isfin h = true /\ fle l h = true /\ isfin (fsub h l) = true) ->
  (0 <= size)%Z ->
  exists a w', uniform_sample g u size w = (Ok a, w') /\ float_matrix (Z.to_nat size) n a /\
    forall i j, i < Z.to_nat size -> j < n -> exists x l h, nth_error (nth i (a_rows a) []) j = Some (CF x) /\
      bound_of lo j l /\ bound_of hi j h /\ fle l x = true /\ fle x h = true.
Proof. exact @uniform_sample_spec. Qed.
Print Assumptions C48_uniform.

Example C48_met : unif_ok demo_rng /\
  match uniform_new 2 (BNum (PyI (-3))) (BList true [half; fone]) with
  | Ok u => match fst (uniform_sample demo_rng u 1 tt) with
            | Ok a => match a_rows a with [[CF x; CF y]] => feq x (lit (-5) (-2)) && feq y (Z2f (-1)) | _ => false end
            | Raise _ => false end
  | Raise _ => false
  end = true.
Proof. split; [exact demo_unif_ok|vm_compute; reflexivity]. Qed.

(** The upper bound itself can be produced. *)
Theorem C48_half_open_refuted : exists W (g : rng W) lo hi u a w w',
  unif_ok g /\ uniform_new 1 (BNum (PyF lo)) (BNum (PyF hi)) = Ok u /\ flt lo hi = true /\ isfin lo = true /\ isfin hi = true /\
  uniform_sample g u 1 w = (Ok a, w') /\ exists x, nth_error (nth 0 (a_rows a) []) 0 = Some (CF x) /\ feq x hi = true.
Proof. exact uniform_half_open. Qed.
Print Assumptions C48_half_open_refuted.

(* ------------------------------ C50 ------------------------------ *)
(** Frequencies whose exact sum is within 2^-28 of 1. *)
Theorem C50_samples_partial : forall W (g : rng W) str_of s n values freq i size w,
  unif_ok g -> cat_init_new s n values freq = Ok i ->
  (forall j v f, nth_error values j = Some v -> nth_error freq j = Some f ->
     category v f /\ (Z.of_nat (List.length f) <= 2 ^ 22)%Z /\ (Rabs (real_sum f - 1) <= bpow radix2 (-28))%R) ->
  (0 <= size)%Z ->
  exists a w', cat_init_sample g str_of i size w = (Ok a, w').
Proof. exact @cat_init_total. Qed.
Print Assumptions C50_samples_partial.

Example C50_met : unif_ok demo_rng /\ is_ok (cat_init_new seq_sum 1 demo_values demo_freq) = true /\
  (forall j v f, nth_error demo_values j = Some v -> nth_error demo_freq j = Some f ->
     category v f /\ (Z.of_nat (List.length f) <= 2 ^ 22)%Z /\ (Rabs (real_sum f - 1) <= bpow radix2 (-28))%R).
Proof.
  split; [exact demo_unif_ok|]. split; [vm_compute; reflexivity|]. intros j v f Hv Hf.
  split; [eapply demo_category; eassumption|]. split; [|eapply demo_freq_near, Hf].
  destruct j as [|[|j]]; try discriminate Hf. assert (E : f = [half; half; Z2f 0]) by (cbn [nth_error demo_freq] in Hf; congruence).
  subst f. cbn [List.length]. lia.
Qed.

(** The documentation's [.33, .33, .33] is accepted by the constructor; every call of sample
    raises ValueError, for every generator and size. *)
Theorem C50_thirds_refuted : forall W (g : rng W) str_of size w,
  exists i, cat_init_new seq_sum 1 demo_values thirds = Ok i /\ fst (cat_init_sample g str_of i size w) = Raise ValueError.
Proof. exact @cat_init_thirds. Qed.
Print Assumptions C50_thirds_refuted.

(* ------------------------------ C52 ------------------------------ *)
(** Vectors of means, where given, have n_variables entries; the uniform, Gaussian and
    categorical initialisers need no such hypothesis.  The categorical initialiser builds a
    pandas frame column by column, so that without variables it has no rows either. *)
Theorem C52_width_partial : forall W (g : rng W) str_of s size w a w',
  pick_ok g ->
  (forall n lo hi u, uniform_new n lo hi = Ok u -> uniform_sample g u size w = (Ok a, w') -> a_nc a = Z.to_nat n /\ a_len a = Z.to_nat size) /\
  (forall n ms ss lo hi i w0 w1, unigauss_init_new g n ms ss lo hi w0 = (Ok i, w1) -> unigauss_init_sample g i size w = (Ok a, w') -> a_nc a = Z.to_nat n /\ a_len a = Z.to_nat size) /\
  (forall n vs fs i, cat_init_new s n vs fs = Ok i -> cat_init_sample g str_of i size w = (Ok a, w') -> a_nc a = Z.to_nat n /\ a_len a = if 0 <? Z.to_nat n then Z.to_nat size else 0) /\
  (forall n ms, ms = [] \/ List.length ms = Z.to_nat n -> unibin_init_sample g (unibin_init_new n ms) size w = (Ok a, w') -> a_nc a = Z.to_nat n /\ a_len a = Z.to_nat size) /\
  (forall n ms cov lo hi i w0 w1, ms = [] \/ List.length ms = Z.to_nat n -> mgauss_init_new g n ms cov lo hi w0 = (Ok i, w1) ->
     mgauss_init_sample g i size w = (Ok a, w') -> a_nc a = Z.to_nat n /\ a_len a = Z.to_nat size).
Proof. exact @init_widths. Qed.
Print Assumptions C52_width_partial.

Example C52_met : pick_ok demo_rng /\
  match fst (unigauss_init_new demo_rng 2 [] [] (Z2f (-3)) (Z2f 100) tt) with
  | Ok i => match fst (unigauss_init_sample demo_rng i 3 tt) with Ok a => Nat.eqb (a_nc a) 2 && Nat.eqb (a_len a) 3 | _ => false end
  | _ => false end = true.
Proof. split; [exact demo_pick_ok|vm_compute; reflexivity]. Qed.

(** UniBinGenInit(1, means) samples as many columns as there are means. *)
Theorem C52_width_refuted : forall W (g : rng W) (ms : list f64) size w,
  (0 <= size)%Z -> ms <> [] -> exists a w', unibin_init_sample g (unibin_init_new 1 ms) size w = (Ok a, w') /\ a_nc a = List.length ms.
Proof. exact @unibin_init_wide. Qed.
Print Assumptions C52_width_refuted.

(* ------------------------------ C53 ------------------------------ *)
(** The sampler is created once; with Lloyd exactly when post-processing was not asked for. *)
Theorem C53_flag_refuted : forall W (qmc : qmc_opt -> Z -> Z -> W -> res (nat -> nat -> f64) * W) scale u size post w,
  snd (snd (lhs_sample (recording qmc) scale u size post (w, []))) = [if post then NoOptimization else Lloyd].
Proof. exact @lhs_flag. Qed.
Print Assumptions C53_flag_refuted.

(* ------------------------------ C54 ------------------------------ *)
(** Construction from bounds succeeds exactly when lower < higher + 1 and |lower|/4 < |higher|/2;
    then sampling succeeds for every size. *)
Theorem C54_bounds_partial : forall W (g : rng W) n lower higher w,
  pick_ok g -> (0 < n)%Z -> moderate lower -> moderate higher ->
  if flt lower (fadd higher fone) && flt (fabs (fquarter lower)) (fabs (fhalf higher)) then
    exists i w', unigauss_init_new g n [] [] lower higher w = (Ok i, w') /\
      forall size w1, (0 <= size)%Z -> exists a w2, unigauss_init_sample g i size w1 = (Ok a, w2) /\ float_matrix (Z.to_nat size) (Z.to_nat n) a
  else fst (unigauss_init_new g n [] [] lower higher w) = Raise ValueError.
Proof. exact @unigauss_init_bounds. Qed.
Print Assumptions C54_bounds_partial.

Example C54_met : pick_ok demo_rng /\ moderate (Z2f (-50)) /\ moderate (Z2f 100) /\
  flt (Z2f (-50)) (fadd (Z2f 100) fone) && flt (fabs (fquarter (Z2f (-50)))) (fabs (fhalf (Z2f 100))) = true.
Proof. split; [exact demo_pick_ok|]. split; [apply moderate_Z; lia|]. split; [apply moderate_Z; lia|vm_compute; reflexivity]. Qed.

(** With the default upper bound of 100 every lower bound of magnitude 200 or more is refused. *)
Theorem C54_bounds_refuted : forall W (g : rng W) n lower w,
  pick_ok g -> (0 < n)%Z -> moderate lower -> (200 <= Rabs (B2R lower))%R ->
  fst (unigauss_init_new g n [] [] lower (Z2f 100) w) = Raise ValueError.
Proof. exact @unigauss_init_refused. Qed.
Print Assumptions C54_bounds_refuted.

Example C54_refuted_met : pick_ok demo_rng /\ moderate (Z2f (-300)) /\ (200 <= Rabs (B2R (Z2f (-300))))%R.
Proof. split; [exact demo_pick_ok|exact moderate_refused]. Qed.
