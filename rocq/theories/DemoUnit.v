(** Two variables in another unit, for the examples of Properties_Unit.v. *)
From Coq Require Import String List ZArith Bool Lia Reals.
From Flocq Require Import Core IEEE754.BinarySingleNaN.
From Verif Require Import PyBase B64 B64More NdArray Eda EdaInv Spec Rand Models Inits Stock LoopMap LoopKeep VarOrder Scale Guard UnitFloat UnitStat UnitRun UnitThms Demo DemoModels DemoStock DemoVar.
Import ListNotations.
Open Scope nat_scope.

Definition row_rng : rng unit := {|
  g_unif := fun _ _ w => (fun i j => if Nat.even (i + j) then quarter else half, w);
  g_gauss := fun _ _ w => (fun i j => if Nat.even i then Z2f (Z.of_nat 3) else Z2f (-2), w);
  g_pick := fun _ _ w => (fun _ => 0, w);
  g_mvn := fun _ _ _ w => (Raise ValueError, w)
|}.
Lemma row_rng_ordinary : ordinary_draws row_rng.
Proof. intros r c w i j. cbn [row_rng g_unif g_gauss fst]. destruct (Nat.even (i + j)), (Nat.even i); split; vm_compute; reflexivity. Qed.
Definition two_args : args := demo_args 3 2 None.
Lemma two_no_data d : g_init_data two_args = Some d -> ordinary_matrix d.
Proof. discriminate. Qed.
Definition lo2 : bound := BList true [Z2f 1; Z2f (-10)].
Definition hi2 : bound := BNum (PyI 20).
(** The sum of the two numbers; the same of two numbers in eighths. *)
Definition two_sum (r : row) : res NdArray.num :=
  match r with [CF x; CF y] => Ok (NF (fadd x y)) | _ => Ok (NI 0) end.
Definition cost_sum (r : row) (w : unit) : res NdArray.num * unit := (two_sum r, w).
Definition cost_eighths (r : row) (w : unit) : res NdArray.num * unit := (two_sum (scaled_row (-3) r), w).
Lemma scaled_back e x : (-100 <= e <= 100)%Z -> moderate x = true -> scaled (- e) (scaled e x) = x.
Proof.
  intros He H. pose proof (moderate_grid x H) as G. destruct (scaled_all e 153 100 x He ltac:(lia) ltac:(lia) G) as (F & R & S).
  assert (G2 : grid (153 + 100) (100 + 100) (scaled e x)).
  { destruct G as (_ & [m Hm] & Hu). split; [exact F|]. rewrite R. split.
    - exists (m * 2 ^ (e + 100))%Z. rewrite Hm, mult_IZR, (IZR_Zpower radix2) by lia. rewrite !Rmult_assoc, <- !bpow_plus. f_equal. f_equal. lia.
    - rewrite Rabs_mult, (Rabs_pos_eq (bpow radix2 e)) by apply bpow_ge_0. rewrite bpow_plus. apply Rmult_le_compat; [apply Rabs_pos|apply bpow_ge_0|exact Hu|]. apply bpow_le. lia. }
  assert (He' : (-100 <= - e <= 100)%Z) by lia.
  destruct (scaled_all (- e) (153 + 100)%Z (100 + 100)%Z (scaled e x) He' ltac:(lia) ltac:(lia) G2) as (F' & R' & S').
  apply same_float; [exact F'|exact (proj1 G)| |rewrite S', S; reflexivity]. rewrite R', R, Rmult_assoc, <- bpow_plus. replace (e + - e)%Z with 0%Z by lia. cbn. ring.
Qed.
Lemma demo_same_cost (r : row) w : List.length r = 2 -> forallb moderate_cell r = true -> cost_eighths (scaled_row 3 r) w = cost_sum r w.
Proof.
  intros L M. destruct r as [|x [|y [|z r]]]; try discriminate L. cbn [forallb] in M. apply andb_true_iff in M. destruct M as [Mx M]. rewrite andb_true_r in M.
  destruct x as [x|x|x], y as [y|y|y]; try discriminate. unfold cost_eighths, cost_sum. cbn [scaled_row map scaled_cell moderate_cell] in *.
  change (-3)%Z with (- (3))%Z. rewrite !scaled_back by (assumption || lia). reflexivity.
Qed.
(** A check of [ordinary], and that the best individual is a row of two different numbers. *)
Definition ordinary_ev (v : ev) : bool :=
  match v with EvGen g _ _ => moderate_rows g | EvLearn d => usual d | _ => true end.
Lemma ordinary_checked tr : forallb ordinary_ev tr = true -> ordinary tr.
Proof.
  rewrite forallb_forall. intros H. apply Forall_forall. intros v Hv. specialize (H v Hv). destruct v; cbn in *; try exact I; exact H.
Qed.
Definition two_cells (r : result) (tr : list ev) : bool :=
  match r_best_ind r with BRow [CF x; CF y] => negb (feq x y) | _ => false end && forallb ordinary_ev tr &&
  existsb (fun v => match v with EvLearn _ => true | _ => false end) tr.
Lemma two_cells_run {X W} (E : env X W) ro cost ftol w : ran E ro cost ftol w two_cells = true ->
  exists o r s, ro = Ok o /\ run E o cost ftol false w = (Ok r, s) /\ two_cells r (s_tr s) = true /\ ordinary (s_tr s).
Proof.
  intros H. destruct (ran_exists E ro cost ftol w two_cells H) as (o & r & s & H1 & H2 & H3). exists o, r, s. split; [exact H1|]. split; [exact H2|]. split; [exact H3|].
  apply ordinary_checked. unfold two_cells in H3. apply andb_true_iff in H3. destruct H3 as [H3 _]. apply andb_true_iff in H3. apply H3.
Qed.
