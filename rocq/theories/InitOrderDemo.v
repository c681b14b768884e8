(** Concrete runs started from the same individuals in different orders. *)
From Coq Require Import String List ZArith Bool Lia Permutation.
From Verif Require Import PyBase B64 NdArray Eda EdaInv Spec LoopObs InitOrder Demo.
Import ListNotations.

(** Four individuals of costs 1, 2, 3 and 4, the best one first. *)
Definition best_first : arr := col (ints [1; 2; 3; 4]).
(** The same ones, the worst one first. *)
Definition worst_first : arr := col (ints [4; 2; 3; 1]).
(** The best one first, the others reordered. *)
Definition best_first' : arr := col (ints [1; 4; 2; 3]).
Definition order_cfg (d : arr) : cfg := conf 4 3 2 false (Some d) None.
Definition order_start : st unit (list arr) := start tt [col (ints [5; 3; 4; 6]); col (ints [2; 6; 7; 4])].

(** The cost of an individual is its first variable. *)
Definition cell_cost (r : row) : f64 := match r with CF x :: _ => x | _ => fone end.
Definition order_hooks : hooks unit (list arr) := scripted (fun r => NF (cell_cost r)) 1.

(** Every row of the first training set costs 1. *)
Definition ones (tr : list ev) : bool :=
  match selections tr with (t, _) :: _ => forallb (fun p => feq (snd p) fone) t && Nat.eqb (List.length t) 2 | [] => false end.
(** Some row of it does not. *)
Definition others (tr : list ev) : bool :=
  match selections tr with (t, _) :: _ => existsb (fun p => negb (feq (snd p) fone)) t && Nat.eqb (List.length t) 2 | [] => false end.

Lemma run_ones : run_check (order_cfg best_first) order_hooks ftol_default true order_start (fun _ tr => ones tr) = true.
Proof. vm_compute. reflexivity. Qed.
Lemma run_others : run_check (order_cfg worst_first) order_hooks ftol_default true order_start (fun _ tr => others tr) = true.
Proof. vm_compute. reflexivity. Qed.

Lemma first_ones tr : ones tr = true -> exists t e ts, selections tr = (t, e) :: ts /\ forall p, In p t -> feq (snd p) fone = true.
Proof.
  unfold ones. destruct (selections tr) as [|[t e] ts]; [discriminate|]. intros H. apply andb_prop in H as [H _].
  exists t, e, ts. split; [reflexivity|]. intros p Hp. rewrite forallb_forall in H. exact (H p Hp).
Qed.
Lemma first_others tr : others tr = true -> exists t e ts, selections tr = (t, e) :: ts /\ exists p, In p t /\ feq (snd p) fone = false.
Proof.
  unfold others. destruct (selections tr) as [|[t e] ts]; [discriminate|]. intros H. apply andb_prop in H as [H _].
  exists t, e, ts. split; [reflexivity|]. apply existsb_exists in H as [p [Hp H]]. exists p. split; [exact Hp|]. apply negb_true_iff, H.
Qed.

Lemma reordered_rows : Permutation (a_rows best_first) (a_rows worst_first).
Proof.
  unfold best_first, worst_first, ints, col. cbn [map a_rows].
  generalize [CF (Z2f 1)] [CF (Z2f 2)] [CF (Z2f 3)] [CF (Z2f 4)]. intros a b c d.
  change [a; b; c; d] with ([a] ++ [b; c] ++ [d]). change [d; b; c; a] with ([d] ++ [b; c] ++ [a]).
  eapply Permutation_trans; [apply Permutation_app_comm|]. eapply Permutation_trans; [apply Permutation_app_tail, Permutation_app_comm|].
  rewrite <- app_assoc. apply Permutation_refl.
Qed.
Lemma reordered_others : exists r0 rs rs', a_rows best_first = r0 :: rs /\ a_rows best_first' = r0 :: rs' /\ Permutation rs rs' /\ rs <> rs'.
Proof.
  unfold best_first, best_first', ints, col. cbn [map a_rows]. eexists. eexists. eexists. split; [reflexivity|]. split; [reflexivity|]. split.
  - generalize [CF (Z2f 2)] [CF (Z2f 3)] [CF (Z2f 4)]. intros b c d.
    change [b; c; d] with ([b; c] ++ [d]). change [d; b; c] with ([d] ++ [b; c]). apply Permutation_app_comm.
  - intros H. assert (E : cell_cost [CF (Z2f 2)] = cell_cost [CF (Z2f 4)]) by congruence.
    assert (F : feq (cell_cost [CF (Z2f 2)]) (cell_cost [CF (Z2f 4)]) = false) by (vm_compute; reflexivity).
    rewrite E in F. vm_compute in F. discriminate.
Qed.
Lemma best_first_costs : (forall r, In r (a_rows best_first) -> isnan (cell_cost r) = false) /\
  (forall r r', In r (a_rows best_first) -> In r' (a_rows best_first) -> feq (cell_cost r) (cell_cost r') = true -> r = r').
Proof.
  unfold best_first, ints, col. cbn [map a_rows]. split.
  - intros r [<-|[<-|[<-|[<-|[]]]]]; vm_compute; reflexivity.
  - intros r r' [<-|[<-|[<-|[<-|[]]]]] [<-|[<-|[<-|[<-|[]]]]] H; try reflexivity; exfalso; revert H; vm_compute; discriminate.
Qed.

Lemma reordering_matters : exists r r' tr tr' t e ts t' e' ts',
  completes (order_cfg best_first) order_hooks ftol_default true order_start r tr /\
  completes (order_cfg worst_first) order_hooks ftol_default true order_start r' tr' /\
  selections tr = (t, e) :: ts /\ selections tr' = (t', e') :: ts' /\
  (forall p, In p t -> feq (snd p) fone = true) /\ (exists p, In p t' /\ feq (snd p) fone = false).
Proof.
  destruct (run_check_completes _ _ _ _ order_start _ eq_refl run_ones) as [r [tr [H1 K1]]].
  destruct (run_check_completes _ _ _ _ order_start _ eq_refl run_others) as [r' [tr' [H2 K2]]].
  destruct (first_ones tr K1) as [t [e [ts [E1 L1]]]]. destruct (first_others tr' K2) as [t' [e' [ts' [E2 L2]]]].
  exists r, r', tr, tr', t, e, ts, t', e', ts'. auto 6.
Qed.

(** ... as a refutation of the claim that the order does not matter. *)
Lemma order_matters : exists (S W : Type) (h : hooks S W) (f : row -> f64) (c : cfg) ftol out (s : st S W) d d' r r' tr tr',
  (forall r w, h_cost h r w = (Ok (NF (f r)), w)) /\ argsort_ok (h_argsort h) /\ c_init_data c = Some d /\
  a_dt d' = a_dt d /\ a_nc d' = a_nc d /\ Permutation (a_rows d) (a_rows d') /\
  (forall r, In r (a_rows d) -> isnan (f r) = false) /\
  (forall r r', In r (a_rows d) -> In r' (a_rows d) -> feq (f r) (f r') = true -> r = r') /\ c_parallelize c = false /\
  completes c h ftol out s r tr /\ completes (with_data d' c) h ftol out s r' tr' /\
  exists t e ts t' e' ts', selections tr = (t, e) :: ts /\ selections tr' = (t', e') :: ts' /\ ~ Permutation t t'.
Proof.
  destruct reordering_matters as (r & r' & tr & tr' & t & e & ts & t' & e' & ts' & H1 & H2 & E1 & E2 & L1 & p & Hp & L2).
  exists unit, (list arr), order_hooks, cell_cost, (order_cfg best_first), ftol_default, true, order_start, best_first, worst_first, r, r', tr, tr'.
  split; [reflexivity|]. split; [exact argsort_ref_ok|]. split; [reflexivity|]. split; [reflexivity|]. split; [reflexivity|].
  split; [exact reordered_rows|]. split; [apply best_first_costs|]. split; [apply best_first_costs|]. split; [reflexivity|].
  split; [exact H1|]. split; [exact H2|]. exists t, e, ts, t', e', ts'. split; [exact E1|]. split; [exact E2|].
  intros HP. apply Permutation_sym in HP. pose proof (L1 p (Permutation_in _ HP Hp)) as H. rewrite H in L2. discriminate.
Qed.

(** The hypotheses of the positive part, met by two different orders. *)
Lemma order_met : exists r0 rs rs',
  c_init_data (order_cfg best_first) = Some best_first /\ a_rows best_first = r0 :: rs /\ a_rows best_first' = r0 :: rs' /\
  Permutation rs rs' /\ rs <> rs' /\
  (forall r, In r (a_rows best_first) -> isnan (cell_cost r) = false) /\
  (forall r r', In r (a_rows best_first) -> In r' (a_rows best_first) -> feq (cell_cost r) (cell_cost r') = true -> r = r') /\
  exists r tr, completes (order_cfg best_first) order_hooks ftol_default true order_start r tr.
Proof.
  destruct reordered_others as [r0 [rs [rs' [H1 [H2 [H3 H4]]]]]]. exists r0, rs, rs'. split; [reflexivity|].
  split; [exact H1|]. split; [exact H2|]. split; [exact H3|]. split; [exact H4|]. split; [apply best_first_costs|]. split; [apply best_first_costs|].
  destruct (run_check_completes _ _ _ _ order_start _ eq_refl run_ones) as [r [tr [K _]]]. exists r, tr. exact K.
Qed.
