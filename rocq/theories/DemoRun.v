(** Concrete runs for the theorem on finite solutions. *)
From Coq Require Import String List ZArith Bool Lia Reals Lra.
From Flocq Require Import Core IEEE754.BinarySingleNaN.
From Verif Require Import PyBase B64 B64More NdArray Eda Spec Rand Models ModelThms Sign Stock StockInv StockGauss StockAll Demo DemoModels DemoStock
  TopK InitThms FloatSum FloatMean FloatRun.
Import ListNotations.
Open Scope R_scope.

Definition unitb (g : arr) : bool :=
  forallb (forallb (fun c => match c with CF v => (isfin v && fle (Z2f (-1)) v && fle v (Z2f 1))%bool | _ => false end)) (a_rows g).

Lemma unitb_ok g : unitb g = true -> cells_in 1 g.
Proof.
  unfold unitb, cells_in. rewrite forallb_forall. intros H. rewrite Forall_forall. intros r Hr. specialize (H r Hr).
  rewrite forallb_forall in H. rewrite Forall_forall. intros c Hc. specialize (H c Hc). destruct c as [z|v|z]; try discriminate.
  apply andb_true_iff in H as [H H3]. apply andb_true_iff in H as [H1 H2]. exists v. split; [reflexivity|]. split; [exact H1|].
  destruct (Z2f_exact (-1)) as [E1 F1]; [lia|]. destruct (Z2f_exact 1) as [E2 F2]; [lia|].
  apply fle_fin in H2; [|exact F1|exact H1]. apply fle_fin in H3; [|exact H1|exact F2]. rewrite E1 in H2. rewrite E2 in H3. apply Rabs_le. lra.
Qed.

Definition four_points : arr := mkArr DFloat 1 [[CF (Z2f 0)]; [CF half]; [CF (Z2f 1)]; [CF (Z2f (-1))]].
Definition four_far : arr := mkArr DFloat 1 [[CF (lit 1 1023)]; [CF (lit 1 1023)]; [CF (lit 1 1023)]; [CF (lit 1 1023)]].

Lemma demo_gauss_within : gauss_within 2 (e_rng env0).
Proof.
  intros a b w i j _ _. cbn [env0 demo_env e_rng demo_rng const_rng g_gauss fst]. destruct (Z2f_exact 2) as [E F]; [lia|].
  split; [exact F|]. rewrite E, Rabs_right; lra.
Qed.

Lemma quarter_small : noise_small (Some (PyF quarter)) 2 1.
Proof.
  intros p Hp. assert (E : p = PyF quarter) by congruence. subst p. cbn [num_to_f]. unfold quarter.
  destruct (lit_R 1 (-2) (/ 4)) as [E F]; [cbn; lia|lia|cbn; lra|]. split; [exact F|]. rewrite E, Rabs_right; lra.
Qed.

Lemma half_small : isfin half = true /\ Rabs (B2R half) <= 1.
Proof. unfold half. destruct (lit_R 1 (-1) (/ 2)) as [E F]; [cbn; lia|lia|cbn; lra|]. split; [exact F|]. rewrite E, Rabs_right; lra. Qed.

Lemma four_ok : data_ok 1 0 (Some four_points).
Proof.
  intros d Hd. assert (E : d = four_points) by congruence. subst d. split; [|lia]. split; [reflexivity|]. split; [reflexivity|].
  cbn [four_points a_rows]. repeat (apply Forall_cons || apply Forall_nil); (split; [reflexivity|]; constructor; [eexists; reflexivity|constructor]).
Qed.

Definition three_gens (tr : list ev) : bool :=
  (Nat.leb 3 (List.length (gens tr)) && match nth_error (gens tr) 0 with Some (g, _) => unitb g | None => false end)%bool.

Definition lost (tr : list ev) : bool :=
  match gens tr with
  | (g0, _) :: (g1, _) :: _ =>
      forallb (forallb (fun c => match c with CF v => isfin v | _ => false end)) (a_rows g0) &&
      existsb (existsb (fun c => match c with CF v => negb (isfin v) | _ => false end)) (a_rows g1)
  | _ => false
  end.

Lemma umdac_case : exists o r s,
  construct env0 (UMDAc (num 0) (num 1) None half (Some (PyF quarter))) (demo_args 3 1 (Some four_points)) = Ok o /\
  run env0 o cost7 ftol_default false tt = (Ok r, s) /\ three_gens (s_tr s) = true.
Proof. apply (ran_ok env0 _ cost7 ftol_default tt (fun _ tr => three_gens tr)). vm_compute. reflexivity. Qed.

Lemma pbil_case : exists o r s,
  construct env0 (PBIL (num 0) (num 1) None half (Some (PyF quarter))) (demo_args 3 1 (Some four_points)) = Ok o /\
  run env0 o cost7 ftol_default false tt = (Ok r, s) /\ three_gens (s_tr s) = true.
Proof. apply (ran_ok env0 _ cost7 ftol_default tt (fun _ tr => three_gens tr)). vm_compute. reflexivity. Qed.

(** Starting from 2^1023. *)
Lemma umdac_lost : exists o r s g0 v0 g1 v1 rest,
  construct env0 (UMDAc (num 0) (num 1) None half None) (demo_args 3 1 (Some four_far)) = Ok o /\
  run env0 o cost7 ftol_default false tt = (Ok r, s) /\ gens (s_tr s) = (g0, v0) :: (g1, v1) :: rest /\
  Forall (Forall (fun c => exists v, c = CF v /\ isfin v = true)) (a_rows g0) /\
  Exists (Exists (fun c => exists v, c = CF v /\ isfin v = false)) (a_rows g1).
Proof.
  destruct (ran_ok env0 (construct env0 (UMDAc (num 0) (num 1) None half None) (demo_args 3 1 (Some four_far))) cost7 ftol_default tt (fun _ tr => lost tr))
    as (o & r & s & Ho & Hr & Hl); [vm_compute; reflexivity|].
  exists o, r, s. unfold lost in Hl. destruct (gens (s_tr s)) as [|[g0 v0] [|[g1 v1] rest]] eqn:Eg; try discriminate.
  exists g0, v0, g1, v1, rest. split; [exact Ho|]. split; [exact Hr|]. split; [reflexivity|].
  apply andb_true_iff in Hl as [H0 H1]. split.
  - rewrite Forall_forall. intros x Hx. rewrite forallb_forall in H0. specialize (H0 x Hx). rewrite Forall_forall. intros c Hc.
    rewrite forallb_forall in H0. specialize (H0 c Hc). destruct c as [z|v|z]; try discriminate. exists v. split; [reflexivity|exact H0].
  - rewrite Exists_exists. apply existsb_exists in H1 as (x & Hx & H1). exists x. split; [exact Hx|]. rewrite Exists_exists.
    apply existsb_exists in H1 as (c & Hc & H1). exists c. split; [exact Hc|]. destruct c as [z|v|z]; try discriminate. exists v.
    split; [reflexivity|]. apply negb_true_iff, H1.
Qed.

Lemma finite_case : (forall l, added l (e_sum env0 l)) /\ sum_ok (e_sum env0) /\ argsort_ok (e_argsort env0) /\ gauss_within 2 (e_rng env0) /\
  bpow radix2 (-500) <= 1 /\ int_times 4 (PyF half) = Ok 2%Z /\ isfin half = true /\ Rabs (B2R half) <= 1 /\
  noise_small (Some (PyF quarter)) 2 1 /\ data_ok 1 0 (Some four_points) /\
  (exists o r s, construct env0 (UMDAc (num 0) (num 1) None half (Some (PyF quarter))) (demo_args 3 1 (Some four_points)) = Ok o /\
     run env0 o cost7 ftol_default false tt = (Ok r, s) /\ three_gens (s_tr s) = true) /\
  (exists o r s, construct env0 (PBIL (num 0) (num 1) None half (Some (PyF quarter))) (demo_args 3 1 (Some four_points)) = Ok o /\
     run env0 o cost7 ftol_default false tt = (Ok r, s) /\ three_gens (s_tr s) = true) /\
  (forall g, unitb g = true -> cells_in 1 g) /\ 1 * (3 * (3 + 2)) ^ 90 <= bpow radix2 400.
Proof.
  refine (conj seq_adds (conj seq_sum_ok (conj argsort_ref_ok (conj demo_gauss_within (conj _ (conj _ (conj (proj1 half_small) (conj (proj2 half_small)
    (conj quarter_small (conj four_ok (conj umdac_case (conj pbil_case (conj unitb_ok _))))))))))))).
  - change 1 with (bpow radix2 0). apply bpow_le. lia.
  - vm_compute. reflexivity.
  - rewrite Rmult_1_l. apply Rle_trans with (bpow radix2 4 ^ 90).
    + apply pow_incr. change (bpow radix2 4) with 16. lra.
    + assert (G : forall n, bpow radix2 4 ^ n = bpow radix2 (4 * Z.of_nat n)).
      { induction n as [|n IH]; [reflexivity|]. cbn [pow]. rewrite IH, <- bpow_plus. f_equal. lia. }
      rewrite G. apply bpow_le. lia.
Qed.

Lemma finite_lost : exists (E : env nat unit) g lo hi lf o cost r s g0 v0 g1 v1 rest,
  construct E (UMDAc lo hi None lf None) g = Ok o /\
  run E o cost ftol_default false tt = (Ok r, s) /\ gens (s_tr s) = (g0, v0) :: (g1, v1) :: rest /\
  Forall (Forall (fun c => exists v, c = CF v /\ isfin v = true)) (a_rows g0) /\
  Exists (Exists (fun c => exists v, c = CF v /\ isfin v = false)) (a_rows g1).
Proof.
  destruct umdac_lost as (o & r & s & H). exists env0, (demo_args 3 1 (Some four_far)), (num 0), (num 1), half, o, cost7, r, s. exact H.
Qed.

Lemma bounds_case : unif_ok (e_rng env0) /\ bounds_ok 1 (num 0) (num 1) /\
  (forall j x, (j < 1)%nat -> bound_of (num 0) j x \/ bound_of (num 1) j x -> Rabs (B2R x) <= 1) /\
  (exists o r s, construct env0 (UMDAc (num 0) (num 1) None half (Some (PyF quarter))) (demo_args 3 1 None) = Ok o /\
     run env0 o cost7 ftol_default false tt = (Ok r, s) /\ Nat.eqb (List.length (gens (s_tr s))) 3 = true) /\
  (exists o r s, construct env0 (PBIL (num 0) (num 1) None half (Some (PyF quarter))) (demo_args 3 1 None) = Ok o /\
     run env0 o cost7 ftol_default false tt = (Ok r, s) /\ Nat.eqb (List.length (gens (s_tr s))) 3 = true).
Proof.
  split; [exact demo_unif_ok|]. split; [apply bounds01|]. split.
  { intros j x _ [Hx|Hx]; cbn [num bound_of num_to_f] in Hx; subst x; [destruct (Z2f_exact 0) as [E _]|destruct (Z2f_exact 1) as [E _]]; try lia; rewrite E; unfold Rabs; destruct Rcase_abs; lra. }
  split; apply (ran_ok env0 _ cost7 ftol_default tt (fun _ tr => Nat.eqb (List.length (gens tr)) 3)); vm_compute; reflexivity.
Qed.
