(** C135: selection never raises the average cost. *)
From Coq Require Import List ZArith Bool Permutation Reals.
From Verif Require Import PyBase B64 NdArray Eda Spec LoopFail Average AverageStrict Demo.
Import ListNotations.
Local Open Scope R_scope.

(* ------------------------------ C135 ------------------------------ *)
(** While all costs are finite, the average cost of the training set is at most that of everything
    selected from, at most that of the generation if it is not larger than that, and at most that
    of any choice of at least as many individuals. *)
Theorem C135_average : forall (S W : Type) (c : cfg) (h : hooks S W)
  (sort : argsort_ok (h_argsort h))
  (trunc : (0 <= c_trunc_len c)%Z)
  (elite_len : (0 <= c_elite_len c)%Z)
  ftol out (s : st S W) r tr
  (ran : executes c h ftol out s r tr),
  each_event (fun before e => match e with
    | EvSelect train elite => finite_costs (evaluated before) -> train <> [] ->
        exists gv, latest before = Some gv /\
          average train <= average (pairs gv ++ elite_before before) /\
          ((List.length train <= List.length (pairs gv))%nat -> average train <= average (pairs gv)) /\
          forall a b, Permutation (pairs gv ++ elite_before before) (a ++ b) -> (List.length train <= List.length a)%nat -> average train <= average a
    | _ => True
    end) tr.
Proof. exact (fun S W => @average_every S W). Qed.
Print Assumptions C135_average.

(** A run with several selections, all costs finite, all training sets non-empty and no larger than
    the generation of four. *)
Example C135_average_met : argsort_ok (h_argsort demo_hooks) /\ (0 <= c_trunc_len demo_cfg)%Z /\ (0 <= c_elite_len demo_cfg)%Z /\
  exists r tr, executes demo_cfg demo_hooks ftol_default true demo_start (Ok r) tr /\ finite_costs (evaluated tr) /\
    (2 <= List.length (selections tr))%nat /\ Forall (fun p => fst p <> [] /\ (List.length (fst p) <= 4)%nat) (selections tr).
Proof.
  split; [apply argsort_ref_ok|]. split; [vm_compute; discriminate|]. split; [vm_compute; discriminate|].
  destruct (run_check_completes demo_cfg demo_hooks ftol_default true demo_start
    (fun _ tr => forallb (fun p => isfin (snd p)) (evaluated tr) && Nat.leb 2 (List.length (selections tr)) &&
       forallb (fun p => negb (Nat.eqb (List.length (fst p)) 0) && Nat.leb (List.length (fst p)) 4) (selections tr))) as (r & tr & H & K);
    [reflexivity|vm_compute; reflexivity|].
  apply andb_prop in K as [K K3]. apply andb_prop in K as [K1 K2]. exists r, tr.
  split; [exact H|]. split; [|split].
  - unfold finite_costs. apply Forall_forall. intros p Hp. rewrite forallb_forall in K1. apply (K1 p), Hp.
  - apply Nat.leb_le, K2.
  - apply Forall_forall. intros p Hp. rewrite forallb_forall in K3. specialize (K3 p Hp). apply andb_prop in K3 as [A B]. split.
    + intros E. apply (f_equal (@List.length _)) in E. cbn in E. apply negb_true_iff, Nat.eqb_neq in A. apply A, E.
    + apply Nat.leb_le, B.
Qed.

(** The elite is on average no dearer than the elite before it, the generation or the training set,
    whichever of these it does not outnumber. *)
Theorem C135_elite : forall (S W : Type) (c : cfg) (h : hooks S W)
  (sort : argsort_ok (h_argsort h))
  (trunc : (0 <= c_trunc_len c)%Z)
  (elite_len : (0 <= c_elite_len c)%Z)
  ftol out (s : st S W) r tr
  (ran : executes c h ftol out s r tr),
  each_event (fun before e => match e with
    | EvSelect train elite => finite_costs (evaluated before) -> elite <> [] ->
        exists gv, latest before = Some gv /\
          ((List.length elite <= List.length (elite_before before))%nat -> average elite <= average (elite_before before)) /\
          ((List.length elite <= List.length (pairs gv))%nat -> average elite <= average (pairs gv)) /\
          ((List.length elite <= List.length train)%nat -> average elite <= average train)
    | _ => True
    end) tr.
Proof. exact (fun S W => @elite_every S W). Qed.
Print Assumptions C135_elite.

(** A run with several selections, each with an elite of two and a training set of two. *)
Example C135_elite_met : argsort_ok (h_argsort demo_hooks) /\ (0 <= c_trunc_len demo_cfg)%Z /\ (0 <= c_elite_len demo_cfg)%Z /\
  exists r tr, executes demo_cfg demo_hooks ftol_default true demo_start (Ok r) tr /\ finite_costs (evaluated tr) /\
    (2 <= List.length (selections tr))%nat /\ Forall (fun p => List.length (fst p) = 2%nat /\ List.length (snd p) = 2%nat) (selections tr).
Proof.
  split; [apply argsort_ref_ok|]. split; [vm_compute; discriminate|]. split; [vm_compute; discriminate|].
  destruct (run_check_completes demo_cfg demo_hooks ftol_default true demo_start
    (fun _ tr => forallb (fun p => isfin (snd p)) (evaluated tr) && Nat.leb 2 (List.length (selections tr)) &&
       forallb (fun p => Nat.eqb (List.length (fst p)) 2 && Nat.eqb (List.length (snd p)) 2) (selections tr))) as (r & tr & H & K);
    [reflexivity|vm_compute; reflexivity|].
  apply andb_prop in K as [K K3]. apply andb_prop in K as [K1 K2]. exists r, tr.
  split; [exact H|]. split; [|split].
  - unfold finite_costs. apply Forall_forall. intros p Hp. rewrite forallb_forall in K1. apply (K1 p), Hp.
  - apply Nat.leb_le, K2.
  - apply Forall_forall. intros p Hp. rewrite forallb_forall in K3. specialize (K3 p Hp). apply andb_prop in K3 as [A B].
    split; apply Nat.eqb_eq; assumption.
Qed.

(** Whenever the costs selected from are not all the same and somebody is left out, the training set
    and the elite are on average strictly cheaper than what they were selected from. *)
Theorem C135_strict : forall (S W : Type) (c : cfg) (h : hooks S W)
  (sort : argsort_ok (h_argsort h))
  (trunc : (0 <= c_trunc_len c)%Z)
  (elite_len : (0 <= c_elite_len c)%Z)
  ftol out (s : st S W) r tr
  (ran : executes c h ftol out s r tr),
  each_event (fun before e => match e with
    | EvSelect train elite => finite_costs (evaluated before) ->
        exists gv, latest before = Some gv /\
          (varied (pairs gv ++ elite_before before) ->
            (train <> [] -> (List.length train < List.length (pairs gv ++ elite_before before))%nat ->
              average train < average (pairs gv ++ elite_before before)) /\
            (elite <> [] -> (List.length elite < List.length (pairs gv ++ elite_before before))%nat ->
              average elite < average (pairs gv ++ elite_before before)))
    | _ => True
    end) tr.
Proof. exact (fun S W => @strict_every S W). Qed.
Print Assumptions C135_strict.

(** A run whose first selection has something to choose. *)
Example C135_strict_met : argsort_ok (h_argsort demo_hooks) /\ (0 <= c_trunc_len demo_cfg)%Z /\ (0 <= c_elite_len demo_cfg)%Z /\
  exists r tr before train elite after gv, executes demo_cfg demo_hooks ftol_default true demo_start (Ok r) tr /\
    tr = before ++ EvSelect train elite :: after /\ finite_costs (evaluated before) /\ latest before = Some gv /\
    varied (pairs gv ++ elite_before before) /\
    (0 < List.length train < List.length (pairs gv ++ elite_before before))%nat /\
    (0 < List.length elite < List.length (pairs gv ++ elite_before before))%nat.
Proof.
  split; [apply argsort_ref_ok|]. split; [vm_compute; discriminate|]. split; [vm_compute; discriminate|].
  destruct (run_check_completes demo_cfg demo_hooks ftol_default true demo_start
    (fun _ tr => match first_selection tr with
       | Some (before, (train, elite), _) => match latest before with
         | Some gv => forallb (fun p => isfin (snd p)) (evaluated before) && (variedb (pairs gv ++ elite_before before) &&
             ((Nat.ltb 0 (List.length train) && Nat.ltb (List.length train) (List.length (pairs gv ++ elite_before before))) &&
              (Nat.ltb 0 (List.length elite) && Nat.ltb (List.length elite) (List.length (pairs gv ++ elite_before before)))))
         | None => false end
       | None => false end)) as (r & tr & H & K); [reflexivity|vm_compute; reflexivity|].
  destruct (first_selection tr) as [[[before [train elite]] after]|] eqn:E; [|discriminate K].
  destruct (latest before) as [gv|] eqn:L; [|discriminate K].
  apply andb_prop in K as [K1 K]. apply andb_prop in K as [K2 K]. apply andb_prop in K as [K3 K4].
  apply andb_prop in K3 as [A1 A2]. apply andb_prop in K4 as [B1 B2].
  exists r, tr, before, train, elite, after, gv. split; [exact H|]. split; [exact (first_selection_eq _ _ _ _ _ E)|].
  split; [unfold finite_costs; apply Forall_forall; intros p Hp; rewrite forallb_forall in K1; apply (K1 p), Hp|].
  split; [exact L|]. split; [exact (variedb_varied _ K2)|].
  split; split; apply Nat.ltb_lt; assumption.
Qed.
