(** Cases for C129 and C130. *)
From Coq Require Import String List ZArith Bool Lia Reals Lra.
From Flocq Require Import Core IEEE754.BinarySingleNaN.
From Verif Require Import PyBase B64 B64More NdArray Eda EdaInv Spec LoopObs Rand RandThms Models ModelThms FloatSum Chance Inits InitThms Stock StockInv StockAll
  MaxLik Mean Found FoundDemo UniformChance BoxChance UniformRun Demo DemoModels DemoStock DemoExt.
Import ListNotations.
Open Scope R_scope.

Lemma uniform_case : exists ui a w', uniform_new 2 (BNum (PyI 0)) (BList true [Z2f 1; Z2f 4]) = Ok ui /\
  uniform_sample (e_rng tape_env) ui 3 (repeat 0%Z 6) = (Ok a, w') /\ full_bound 2 (BNum (PyI 0)) /\ full_bound 2 (BList true [Z2f 1; Z2f 4]) /\
  flt (Z2f 0) (Z2f 4) = true /\ Rabs (B2R (Z2f 0)) <= 4 /\ Rabs (B2R (Z2f 4)) <= 4 /\ B2R (Z2f 0) <= 1 <= B2R (Z2f 4).
Proof.
  destruct (Z2f_exact 4) as [E4 _]; [lia|]. pose proof Z2f_0_R as E0. eexists. eexists. eexists. split; [reflexivity|].
  split; [reflexivity|]. split; [exact I|]. split; [reflexivity|]. split; [reflexivity|]. rewrite E0, E4. rewrite Rabs_R0, Rabs_pos_eq by lra. lra.
Qed.

Definition box_bx : list (f64 * f64) := [(quarter, DemoModels.half); (quarter, DemoModels.half)].
Definition first_cell (r : row) : f64 := match r with CF x :: _ => x | _ => Z2f 0 end.

Lemma box_case : tape_rng (e_rng tape_env) /\
  (forall j l h a b s, bound_of (BNum (PyI 0)) j l -> bound_of (BNum (PyI 1)) j h -> nth_error box_bx j = Some (a, b) -> nth_error [/ 8; / 8] j = Some s ->
     side_fits 1 l h a b s) /\
  (forall r, in_box box_bx r = true -> fle (first_cell r) DemoModels.half = true) /\
  exists o r s r' s', construct tape_env (UMDAc (BNum (PyI 0)) (BNum (PyI 1)) None DemoModels.half None) tape_args = Ok o /\
    run tape_env o (fun r w => (Ok (NF (first_cell r)), w)) (Z2f 0) false (repeat (3 * 2 ^ 50)%Z 8) = (Ok r, s) /\ first_outside box_bx (s_tr s) = false /\
    run tape_env o (fun r w => (Ok (NF (first_cell r)), w)) (Z2f 0) false (repeat (7 * 2 ^ 50)%Z 8) = (Ok r', s') /\ first_outside box_bx (s_tr s') = true.
Proof.
  split; [intros r c w; reflexivity|]. split.
  - intros j l h a b s -> -> Ha Hs. cbn [num_to_f].
    assert (Eab : a = quarter /\ b = DemoModels.half). { destruct j as [|[|j]]; cbn [box_bx nth_error] in Ha; [split; congruence|split; congruence|destruct j; discriminate Ha]. }
    assert (Es : s = / 8). { destruct j as [|[|j]]; cbn [nth_error] in Hs; [congruence|congruence|destruct j; discriminate Hs]. }
    destruct Eab as [-> ->]. subst s. destruct (Z2f_exact 1) as [E1 F1]; [lia|]. pose proof Z2f_0_R as E0.
    assert (Eq : B2R quarter = / 4). { unfold quarter. destruct (lit_R 1 (-2) (/ 4)) as [K _]; [discriminate|lia|cbn; lra|exact K]. }
    assert (Eh : B2R DemoModels.half = / 2). { unfold DemoModels.half. destruct (lit_R 1 (-1) (/ 2)) as [K _]; [discriminate|lia|cbn; lra|exact K]. }
    unfold side_fits. rewrite E0, E1, Eq, Eh, Rabs_R0, Rabs_R1. pose proof u_small as U. pose proof u_pos.
    assert (T : eta <= u) by (apply bpow_le; discriminate).
    repeat (split; [first [reflexivity|lra]|]). lra.
  - split.
    + intros [|[z|x|z] r] H; try discriminate H. cbn [in_box box_bx] in H. apply andb_true_iff in H as [H _]. apply andb_true_iff in H as [_ H]. exact H.
    + destruct (ran_ok tape_env (construct tape_env (UMDAc (BNum (PyI 0)) (BNum (PyI 1)) None DemoModels.half None) tape_args) (fun r w => (Ok (NF (first_cell r)), w)) (Z2f 0) (repeat (3 * 2 ^ 50)%Z 8)
        (fun _ tr => negb (first_outside box_bx tr))) as (o & r & s & A1 & A2 & A3); [vm_compute; reflexivity|].
      destruct (ran_ok tape_env (construct tape_env (UMDAc (BNum (PyI 0)) (BNum (PyI 1)) None DemoModels.half None) tape_args) (fun r w => (Ok (NF (first_cell r)), w)) (Z2f 0) (repeat (7 * 2 ^ 50)%Z 8)
        (fun _ tr => first_outside box_bx tr)) as (o' & r' & s' & B1 & B2 & B3); [vm_compute; reflexivity|].
      assert (o' = o) by congruence. subst o'. exists o, r, s, r', s'. apply negb_true_iff in A3. repeat (split; [assumption|]). assumption.
Qed.
