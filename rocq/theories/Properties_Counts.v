(** C137: how many selected individuals reach a given cost. *)
From Coq Require Import List ZArith Bool.
From Verif Require Import PyBase B64 NdArray Eda Spec LoopFail AverageStrict Counts Demo.
Import ListNotations.
Local Open Scope nat_scope.

(* ------------------------------ C137 ------------------------------ *)
(** For every cost [v]: the training set and the elite hold as many individuals of cost at most [v]
    as there are in the generation and the previous elite, up to their sizes; and the elite holds as
    many as were ever evaluated, up to its size. *)
Theorem C137_counts : forall (S W : Type) (c : cfg) (h : hooks S W)
  (sort : argsort_ok (h_argsort h))
  (trunc : (0 <= c_trunc_len c)%Z)
  (elite_len : (0 <= c_elite_len c)%Z)
  ftol out (s : st S W) r tr
  (ran : executes c h ftol out s r tr),
  each_event (fun before e => match e with
    | EvSelect train elite => exists gv, latest before = Some gv /\ forall v,
        reaching v train = Nat.min (Z.to_nat (c_trunc_len c)) (reaching v (pairs gv) + reaching v (elite_before before)) /\
        reaching v elite = Nat.min (Z.to_nat (c_elite_len c)) (reaching v (pairs gv) + reaching v (elite_before before)) /\
        Nat.min (Z.to_nat (c_elite_len c)) (reaching v (evaluated before)) <= reaching v elite <= reaching v (evaluated before) + 1
    | _ => True
    end) tr.
Proof. exact (fun S W => @counts_every S W). Qed.
Print Assumptions C137_counts.

(** A run with several selections; at the first, some but not all of the evaluated individuals reach
    the cost of the first of them. *)
Example C137_counts_met : argsort_ok (h_argsort demo_hooks) /\ (0 <= c_trunc_len demo_cfg)%Z /\ (0 <= c_elite_len demo_cfg)%Z /\
  exists r tr before train elite after v, executes demo_cfg demo_hooks ftol_default true demo_start (Ok r) tr /\
    tr = before ++ EvSelect train elite :: after /\ 2 <= List.length (selections tr) /\
    0 < reaching v (evaluated before) < List.length (evaluated before).
Proof.
  split; [apply argsort_ref_ok|]. split; [vm_compute; discriminate|]. split; [vm_compute; discriminate|].
  destruct (run_check_completes demo_cfg demo_hooks ftol_default true demo_start
    (fun _ tr => match first_selection tr with
       | Some (before, (train, elite), _) => Nat.leb 2 (List.length (selections tr)) &&
           existsb (fun p => Nat.ltb 0 (reaching (snd p) (evaluated before)) && Nat.ltb (reaching (snd p) (evaluated before)) (List.length (evaluated before)))
             (evaluated before)
       | None => false end)) as (r & tr & H & K); [reflexivity|vm_compute; reflexivity|].
  destruct (first_selection tr) as [[[before [train elite]] after]|] eqn:E; [|discriminate K].
  apply andb_prop in K as [K1 K]. apply existsb_exists in K as (p & _ & K). apply andb_prop in K as [K2 K3].
  exists r, tr, before, train, elite, after, (snd p). split; [exact H|]. split; [exact (first_selection_eq _ _ _ _ _ E)|].
  split; [apply Nat.leb_le, K1|]. split; apply Nat.ltb_lt; assumption.
Qed.

(** The number of elite individuals of cost at most [v] never falls during a run. *)
Theorem C137_rises : forall (S W : Type) (c : cfg) (h : hooks S W)
  (sort : argsort_ok (h_argsort h))
  (trunc : (0 <= c_trunc_len c)%Z)
  (elite_len : (0 <= c_elite_len c)%Z)
  ftol out (s : st S W) r tr
  (ran : executes c h ftol out s r tr)
  tr1 train elite tr2 train' elite' tr3
  (selected : tr = tr1 ++ EvSelect train elite :: tr2 ++ EvSelect train' elite' :: tr3) v,
  reaching v elite <= reaching v elite'.
Proof. exact (fun S W => @counts_rise S W). Qed.
Print Assumptions C137_rises.

(** A run with two selections. *)
Example C137_rises_met : argsort_ok (h_argsort demo_hooks) /\ (0 <= c_trunc_len demo_cfg)%Z /\ (0 <= c_elite_len demo_cfg)%Z /\
  exists r tr tr1 train elite tr2 train' elite' tr3, executes demo_cfg demo_hooks ftol_default true demo_start (Ok r) tr /\
    tr = tr1 ++ EvSelect train elite :: tr2 ++ EvSelect train' elite' :: tr3 /\ elite <> [].
Proof.
  split; [apply argsort_ref_ok|]. split; [vm_compute; discriminate|]. split; [vm_compute; discriminate|].
  destruct (run_check_completes demo_cfg demo_hooks ftol_default true demo_start
    (fun _ tr => match first_selection tr with
       | Some (_, (_, elite), after) => Nat.ltb 0 (List.length elite) && match first_selection after with Some _ => true | None => false end
       | None => false end)) as (r & tr & H & K); [reflexivity|vm_compute; reflexivity|].
  destruct (first_selection tr) as [[[tr1 [train elite]] after]|] eqn:E; [|discriminate K]. apply andb_prop in K as [K1 K].
  destruct (first_selection after) as [[[tr2 [train' elite']] tr3]|] eqn:E2; [|discriminate K].
  exists r, tr, tr1, train, elite, tr2, train', elite', tr3. split; [exact H|].
  split; [rewrite <- (first_selection_eq _ _ _ _ _ E2); exact (first_selection_eq _ _ _ _ _ E)|].
  intros ->. discriminate K1.
Qed.

(** The individual of any rank in the elite is never followed by a dearer one of that rank
    (for a run with two selections, see C137_rises_met). *)
Theorem C137_ranks : forall (S W : Type) (c : cfg) (h : hooks S W)
  (sort : argsort_ok (h_argsort h))
  (trunc : (0 <= c_trunc_len c)%Z)
  (elite_len : (0 <= c_elite_len c)%Z)
  ftol out (s : st S W) r tr
  (ran : executes c h ftol out s r tr)
  tr1 train elite tr2 train' elite' tr3
  (selected : tr = tr1 ++ EvSelect train elite :: tr2 ++ EvSelect train' elite' :: tr3)
  i p (ranked : nth_error elite i = Some p),
  exists q, nth_error elite' i = Some q /\ cheaper q p.
Proof. exact (fun S W => @ranks_fall S W). Qed.
Print Assumptions C137_ranks.

(** The same run: its first elite has a first member. *)
Example C137_ranks_met : argsort_ok (h_argsort demo_hooks) /\ (0 <= c_trunc_len demo_cfg)%Z /\ (0 <= c_elite_len demo_cfg)%Z /\
  exists r tr tr1 train elite tr2 train' elite' tr3 p, executes demo_cfg demo_hooks ftol_default true demo_start (Ok r) tr /\
    tr = tr1 ++ EvSelect train elite :: tr2 ++ EvSelect train' elite' :: tr3 /\ nth_error elite 0 = Some p.
Proof.
  destruct C137_rises_met as (A & B & C & r & tr & tr1 & train & elite & tr2 & train' & elite' & tr3 & H & E & N).
  split; [exact A|]. split; [exact B|]. split; [exact C|]. destruct elite as [|p elite]; [exfalso; apply N; reflexivity|].
  exists r, tr, tr1, train, (p :: elite), tr2, train', elite', tr3, p. split; [exact H|]. split; [exact E|reflexivity].
Qed.
