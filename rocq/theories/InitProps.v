(** Combined statements about the initialisers. *)
From Coq Require Import String List ZArith Bool Lia Reals Lra.
From Flocq Require Import Core IEEE754.BinarySingleNaN.
From Verif Require Import PyBase B64 B64More NdArray Rand RandThms Models Inits ModelThms Kahan CatThms InitThms InitGauss DemoModels.
Import ListNotations.
Open Scope nat_scope.

(** lower 1, upper the next double, largest draw: the sample is upper. *)
Lemma uniform_half_open : exists W (g : rng W) lo hi u a w w',
  unif_ok g /\ uniform_new 1 (BNum (PyF lo)) (BNum (PyF hi)) = Ok u /\ flt lo hi = true /\ isfin lo = true /\ isfin hi = true /\
  uniform_sample g u 1 w = (Ok a, w') /\ exists x, nth_error (nth 0 (a_rows a) []) 0 = Some (CF x) /\ feq x hi = true.
Proof.
  exists unit, (const_rng (lit (2 ^ 53 - 1) (-53)) fone 0), fone, (lit (2 ^ 52 + 1) (-52)). eexists _, _, tt, _.
  split; [apply const_unif_ok; vm_compute; reflexivity|]. split; [reflexivity|]. split; [vm_compute; reflexivity|].
  split; [vm_compute; reflexivity|]. split; [vm_compute; reflexivity|]. split.
  - unfold uniform_sample. cbn [ui_n ui_lo ui_hi]. unfold np_uniform.
    replace (forallb _ _) with true by (vm_compute; reflexivity). cbn [negb]. reflexivity.
  - eexists. split; [reflexivity|vm_compute; reflexivity].
Qed.

Lemma np_mvn_width {W} (g : rng W) m c size w a w' : np_mvn g m c size w = (Ok a, w') -> a_nc a = List.length m /\ a_len a = Z.to_nat size.
Proof.
  unfold np_mvn. destruct (negb _); [discriminate|]. destruct (size <? 0)%Z; [discriminate|].
  destruct (g_mvn g m c _ w) as [[d|e] w1]; [|discriminate]. intros H. injection H as <- <-. split; [reflexivity|].
  unfold a_len. cbn. apply tabulate_length.
Qed.

(** Means drawn by the initialiser itself have the right length. *)
Lemma mgauss_init_len {W} (g : rng W) n cov lower upper w i w' :
  pick_ok g -> mgauss_init_new g n [] cov lower upper w = (Ok i, w') -> List.length (mi_means i) = Z.to_nat n.
Proof.
  intros Hg. unfold mgauss_init_new. destruct (negb _); [discriminate|]. destruct (n <? 0)%Z; [discriminate|].
  set (v := arange_f lower (fadd upper fone)).
  assert (G : forall k w ms w1, np_choice_any g v k w = (Ok ms, w1) -> List.length ms = k).
  { intros k w0 ms w1. unfold np_choice_any. destruct (_ && _); [discriminate|]. destruct (g_pick g (List.length v) k w0) as [f w2].
    intros H. assert (H' : gather (tabulate k f) v = Ok ms) by (destruct (gather (tabulate k f) v); congruence).
    apply gather_ok_Forall2 in H'. rewrite <- (tabulate_length k f). clear - H'. induction H'; cbn; congruence. }
  destruct (np_choice_any g v (Z.to_nat n) w) as [[ms|e] w1] eqn:E1; [|discriminate].
  destruct (np_choice_any g v (Z.to_nat n * Z.to_nat n) w1) as [[cs|e] w2]; [|discriminate].
  intros H. injection H as <- <-. cbn. eapply G, E1.
Qed.

Lemma init_widths {W} (g : rng W) str_of s size w a w' :
  pick_ok g ->
  (forall n lo hi u, uniform_new n lo hi = Ok u -> uniform_sample g u size w = (Ok a, w') -> a_nc a = Z.to_nat n /\ a_len a = Z.to_nat size) /\
  (forall n ms ss lo hi i w0 w1, unigauss_init_new g n ms ss lo hi w0 = (Ok i, w1) -> unigauss_init_sample g i size w = (Ok a, w') -> a_nc a = Z.to_nat n /\ a_len a = Z.to_nat size) /\
  (forall n vs fs i, cat_init_new s n vs fs = Ok i -> cat_init_sample g str_of i size w = (Ok a, w') -> a_nc a = Z.to_nat n /\ a_len a = if 0 <? Z.to_nat n then Z.to_nat size else 0) /\
  (forall n ms, ms = [] \/ List.length ms = Z.to_nat n -> unibin_init_sample g (unibin_init_new n ms) size w = (Ok a, w') -> a_nc a = Z.to_nat n /\ a_len a = Z.to_nat size) /\
  (forall n ms cov lo hi i w0 w1, ms = [] \/ List.length ms = Z.to_nat n -> mgauss_init_new g n ms cov lo hi w0 = (Ok i, w1) ->
     mgauss_init_sample g i size w = (Ok a, w') -> a_nc a = Z.to_nat n /\ a_len a = Z.to_nat size).
Proof.
  intros Hg. split; [|split; [|split; [|split]]].
  - intros n lo hi u Hu H. apply uniform_width in H. unfold uniform_new in Hu. destruct (_ && _); [|discriminate].
    assert (E : u = mkUI n lo hi) by congruence. subst u. exact H.
  - intros n ms ss lo hi i w0 w1 Hi H. apply unigauss_init_width in H.
    assert (E : gi_n i = n); [|rewrite E in H; exact H].
    unfold unigauss_init_new in Hi. destruct (negb _); [discriminate|]. destruct ms; [|injection Hi as <- _; reflexivity].
    destruct (n <? 0)%Z; [discriminate|]. destruct (np_choice_any g (arange_f lo _) _ w0) as [[]]; [|discriminate].
    destruct (np_choice_any g (arange_f (fabs _) _) _ _) as [[]]; [|discriminate]. injection Hi as <- _. reflexivity.
  - intros n vs fs i Hi H. eapply cat_init_width; eassumption.
  - intros n ms Hm H. apply unibin_init_width in H; [|exact Hm]. destruct H as [(_ & E & _) E']. auto.
  - intros n ms cov lo hi i w0 w1 Hm Hi H. apply np_mvn_width in H. destruct H as [E1 E2]. split; [|exact E2]. rewrite E1.
    destruct ms as [|m ms]; [eapply mgauss_init_len; eassumption|]. destruct Hm as [Hm|Hm]; [discriminate|].
    unfold mgauss_init_new in Hi. destruct (negb _); [discriminate|]. injection Hi as <- _. exact Hm.
Qed.

(** A vector of probabilities of the wrong length is taken and decides the width. *)
Lemma unibin_init_wide {W} (g : rng W) (ms : list f64) size w :
  (0 <= size)%Z -> ms <> [] -> exists a w', unibin_init_sample g (unibin_init_new 1 ms) size w = (Ok a, w') /\ a_nc a = List.length ms.
Proof.
  intros Hs Hm. unfold unibin_init_sample, unibin_sample. destruct (Z.ltb_spec size 0); [lia|].
  unfold unibin_init_new. cbn [bi_pm ub_n ub_pm]. destruct ms as [|m ms]; [congruence|].
  change (Z.to_nat 1) with 1. unfold bres. destruct (g_unif g (Z.to_nat size) 1 w) as [u w1] eqn:E.
  destruct ms as [|m2 ms]; cbn [List.length Nat.eqb]; rewrite ?E; eexists _, _; (split; [reflexivity|reflexivity]).
Qed.

(** Accepted by the constructor, refused by every sample. *)
Definition third : f64 := fdiv (Z2f 33) (Z2f 100).
Definition thirds : list (list f64) := [[third; third; third]].

Lemma cat_init_thirds {W} (g : rng W) str_of size w :
  exists i, cat_init_new seq_sum 1 demo_values thirds = Ok i /\ fst (cat_init_sample g str_of i size w) = Raise ValueError.
Proof.
  eexists. split.
  - unfold cat_init_new. replace (cat_check seq_sum (Z.to_nat 1) demo_values thirds) with (Ok tt) by (vm_compute; reflexivity). reflexivity.
  - unfold cat_init_sample. cbn [ci_n ci_values ci_freq]. change (firstn (Z.to_nat 1) (combine demo_values thirds)) with [([CS "a"; CS "b"; CS "c"]%string, [third; third; third])].
    cbn [draw_columns fst snd]. unfold np_choice.
    replace (probs_ok [third; third; third]) with false by (vm_compute; reflexivity).
    cbn [negb]. repeat match goal with |- context [if ?b then _ else _] => destruct b end; reflexivity.
Qed.

(** A sampler that records the optimization option it is created with. *)
Definition recording {W} (qmc : qmc_opt -> Z -> Z -> W -> res (nat -> nat -> f64) * W)
  : qmc_opt -> Z -> Z -> W * list qmc_opt -> res (nat -> nat -> f64) * (W * list qmc_opt) :=
  fun o n k wl => let (r, w') := qmc o n k (fst wl) in (r, (w', snd wl ++ [o])).

Lemma lhs_flag {W} (qmc : qmc_opt -> Z -> Z -> W -> res (nat -> nat -> f64) * W) scale (u : uniform_init) size post w :
  snd (snd (lhs_sample (recording qmc) scale u size post (w, []))) = [if post then NoOptimization else Lloyd].
Proof.
  unfold lhs_sample, recording. cbn [fst snd]. destruct (qmc _ _ _ w) as [[x|e] w']; reflexivity.
Qed.

Lemma moderate_refused : moderate (Z2f (-300)) /\ (200 <= Rabs (B2R (Z2f (-300))))%R.
Proof.
  split; [apply moderate_Z; lia|]. destruct (Z2f_exact (-300)) as [R _]; [lia|]. rewrite R. rewrite Rabs_left; lra.
Qed.
