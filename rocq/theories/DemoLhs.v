(** Concrete Latin hypercube samplers. *)
From Coq Require Import List ZArith Bool Permutation Lia Reals Lra.
From Flocq Require Import Core IEEE754.BinarySingleNaN.
From Verif Require Import PyBase B64 B64More NdArray Rand Models Inits ModelThms CatThms InitThms InitGauss DemoModels Lhs LhsThms.
Import ListNotations.
Open Scope nat_scope.

(** Draws are all [u]; the ranks run backwards; Lloyd's algorithm moves every point
    to the middle, and refuses tables of fewer than two columns. *)
Definition demo_qmc (u : f64) : qmc_source unit := {|
  q_unif := fun _ _ w => (fun _ _ => u, w);
  q_shuffle := fun r _ w => (fun i _ => r - i, w);
  q_lloyd := fun r c s => if c <? 2 then Raise ValueError else Ok (fun _ _ => half)
|}.

Lemma demo_qmc_unif u : fle (Z2f 0) u = true -> flt u fone = true -> q_unif_ok (demo_qmc u).
Proof. intros H0 H1 r c w i j. split; assumption. Qed.

Lemma backwards r : Permutation (map (fun i => r - i) (seq 0 r)) (seq 1 r).
Proof.
  apply Permutation_sym, NoDup_Permutation_bis.
  - apply seq_NoDup.
  - rewrite map_length, !seq_length. lia.
  - intros x Hx. apply in_seq in Hx. apply in_map_iff. exists (r - x). split; [lia|apply in_seq; lia].
Qed.

Lemma demo_qmc_shuffle u : q_shuffle_ok (demo_qmc u).
Proof. intros r c w j Hj. cbn [demo_qmc q_shuffle fst]. apply backwards. Qed.

Lemma demo_qmc_plane u : q_lloyd_plane (demo_qmc u).
Proof. intros r c s H. cbn [demo_qmc q_lloyd]. destruct (Nat.ltb_spec c 2); [reflexivity|lia]. Qed.

Lemma demo_qmc_unit u : lloyd_unit (demo_qmc u).
Proof.
  intros r c s H. cbn [demo_qmc q_lloyd]. destruct (Nat.ltb_spec c 2); [lia|]. eexists. split; [reflexivity|].
  intros i j _ _. split; vm_compute; reflexivity.
Qed.

(** Lower bounds -3 and 0, upper bound 5. *)
Definition demo_lo : bound := BList true [Z2f (-3); Z2f 0].
Definition demo_hi : bound := BNum (PyI 5).

Lemma demo_range : range_ok 2 demo_lo demo_hi.
Proof.
  split; [reflexivity|]. split; [exact I|]. intros j l h Hj Hl Hh. cbn [bound_of demo_lo demo_hi num_to_f] in Hl, Hh. subst h.
  destruct j as [|[|j]]; [| |lia]; cbn [nth_error] in Hl.
  - assert (E : l = Z2f (-3)) by congruence. subst l. split; [apply moderate_Z; lia|]. split; [apply moderate_Z; lia|vm_compute; reflexivity].
  - assert (E : l = Z2f 0) by congruence. subst l. split; [apply moderate_Z; lia|]. split; [apply moderate_Z; lia|vm_compute; reflexivity].
Qed.

(** LatinHypercubeSampling(2, -0.1, 0.2): the draw 0 in the top slot gives
    0.20000000000000004. *)
Definition minus_tenth : f64 := fdiv (Z2f (-1)) (Z2f 10).
Definition fifth : f64 := fdiv (Z2f 2) (Z2f 10).

Lemma small_moderate x : isfin x = true -> fle (Z2f (-1)) x = true -> fle x fone = true -> moderate x.
Proof.
  intros F A B. split; [exact F|]. destruct (Z2f_exact (-1)) as [R1 F1]; [lia|].
  apply (fle_fin _ _ F1 F) in A. apply (fle_fin _ _ F fone_fin) in B. rewrite R1 in A. rewrite fone_R in B.
  assert (1 <= bpow radix2 1000)%R by (change 1%R with (bpow radix2 0); apply bpow_le; lia).
  apply Rabs_le. lra.
Qed.

Lemma tenth_range n : range_ok n (BNum (PyF minus_tenth)) (BNum (PyF fifth)).
Proof.
  split; [exact I|]. split; [exact I|]. intros j l h _ Hl Hh. cbn [bound_of num_to_f] in Hl, Hh. subst l h.
  split; [apply small_moderate; vm_compute; reflexivity|]. split; [apply small_moderate; vm_compute; reflexivity|vm_compute; reflexivity].
Qed.

Lemma lhs_above : exists W (q : qmc_source W) lo hi u a w w',
  q_unif_ok q /\ q_shuffle_ok q /\ range_ok 2 lo hi /\ lhs_new 2 lo hi = Ok u /\ lhs_draw q u 3 true w = (Ok a, w') /\
  exists x h, nth_error (nth 0 (a_rows a) []) 0 = Some (CF x) /\ bound_of hi 0 h /\ flt h x = true.
Proof.
  exists unit, (demo_qmc (Z2f 0)), (BNum (PyF minus_tenth)), (BNum (PyF fifth)), (mkUI 2 (BNum (PyF minus_tenth)) (BNum (PyF fifth))).
  eexists _, tt, _. split; [apply demo_qmc_unif; vm_compute; reflexivity|]. split; [apply demo_qmc_shuffle|]. split; [apply tenth_range|].
  split; [reflexivity|]. split.
  - unfold lhs_draw, lhs_sample, latin_hypercube. cbn [ui_n ui_lo ui_hi]. change ((2 <? 0) || (3 <? 0))%Z with false. cbn [q_unif q_shuffle demo_qmc].
    unfold qmc_scale. replace (forallb _ _) with true by (vm_compute; reflexivity).
    replace (some_entry _ _ (fun x => flt fone x) _) with false by (vm_compute; reflexivity).
    replace (some_entry _ _ _ _) with false by (vm_compute; reflexivity). reflexivity.
  - eexists _, _. split; [reflexivity|]. split; [reflexivity|vm_compute; reflexivity].
Qed.

(** Values of a run with 3 samples: column 0 is spread over -3..5, column 1 over 0..5. *)
Lemma demo_draw_values :
  match lhs_new 2 demo_lo demo_hi with
  | Ok u => match fst (lhs_draw (demo_qmc half) u 4 true tt) with
            | Ok a => match a_rows a with [CF x :: _; _; _; [CF y; CF z]] => feq x (Z2f 4) && feq y (Z2f (-2)) && feq z (lit 5 (-3)) | _ => false end
            | Raise _ => false end
  | Raise _ => false
  end = true.
Proof. vm_compute. reflexivity. Qed.
