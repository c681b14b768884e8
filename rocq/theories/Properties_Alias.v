(** Properties of sharing between the optimiser and its caller. *)
From Coq Require Import List ZArith Bool.
From Verif Require Import PyBase B64 NdArray Eda Alias AliasThms AliasProps Demo.
Import ListNotations.
Open Scope nat_scope.

(* ------------------------------ C76 ------------------------------ *)
Theorem C76_arrays : forall {S W} c (h : hooks S W) hcost data ftol out s r s',
  same_calls h hcost -> c_parallelize c = true \/ leaves_argument hcost ->
  heap_ok s -> data_is c data (hs_mem s) -> hs_tr s = [] -> hs_seen s = [] ->
  hminimize c h hcost data ftol out s = (r, s') ->
  (forall a, a < List.length (hs_mem s) -> deref (hs_mem s') a = deref (hs_mem s) a) /\
  (forall a x, In (a, x) (hs_seen s') -> deref (hs_mem s') a = x) /\
  (forall g rets vals, In (EvGen g rets vals) (hs_tr s') -> exists a, In (a, g) (hs_seen s')).
Proof. exact @sharing_is_safe. Qed.
Print Assumptions C76_arrays.

Theorem C76_results : forall {S W} c (h : hooks S W) hcost data ftol out hcost2 data2 c2 (h2 : hooks S W) ftol2 out2 s x s' r2 s'',
  same_calls h hcost -> c_parallelize c = true \/ leaves_argument hcost ->
  heap_ok s -> data_is c data (hs_mem s) -> hs_seen s = [] ->
  hminimize c h hcost data ftol out s = (Ok x, s') ->
  same_calls h2 hcost2 -> c_parallelize c2 = true \/ leaves_argument hcost2 -> data_is c2 data2 (hs_mem s') ->
  hminimize c2 h2 hcost2 data2 ftol2 out2 (again s') = (r2, s'') ->
  see_result (hs_mem s'') x = see_result (hs_mem s') x.
Proof. exact @earlier_result_kept. Qed.
Print Assumptions C76_results.

(** Hence every theorem about Eda.minimize is one about the code that shares arrays. *)
Theorem C76_values : forall {S W} c (h : hooks S W) hcost data ftol out s r s',
  same_calls h hcost -> c_parallelize c = true \/ leaves_argument hcost ->
  heap_ok s -> data_is c data (hs_mem s) -> hs_seen s = [] ->
  hminimize c h hcost data ftol out s = (r, s') ->
  minimize c h ftol out (abs s) = (match r with Ok x => Ok (see_result (hs_mem s') x) | Raise e => Raise e end, abs s').
Proof. exact @same_as_values. Qed.
Print Assumptions C76_values.

Example C76_case : same_calls (scripted first_cell 2) (fun r w => (Ok (first_cell r), r, w)) /\
  leaves_argument (fun r (w : list arr) => (Ok (first_cell r), r, w)) /\
  heap_ok (hstart next_gen) /\ data_is (writing_conf false) (Some 0) (hs_mem (hstart next_gen)).
Proof.
  split; [intros r w; split; reflexivity|]. split; [intros r w; reflexivity|].
  split; [split; [constructor|split; [constructor|exact I]]|exact (writing_data false)].
Qed.

(* ------------------------------ C77 ------------------------------ *)
(** Missing from the full statement: evaluation in this process ([C77_refuted]). *)
Theorem C77_partial : forall {S W} c (h : hooks S W) hcost data ftol out s r s',
  same_calls h hcost -> c_parallelize c = true ->
  heap_ok s -> data_is c data (hs_mem s) -> hs_seen s = [] ->
  hminimize c h hcost data ftol out s = (r, s') ->
  (forall a, a < List.length (hs_mem s) -> deref (hs_mem s') a = deref (hs_mem s) a) /\
  minimize c h ftol out (abs s) = (match r with Ok x => Ok (see_result (hs_mem s') x) | Raise e => Raise e end, abs s').
Proof. exact @workers_write_copies. Qed.
Print Assumptions C77_partial.
Example C77_case : same_calls (scripted first_cell 2) overwriting /\ ~ leaves_argument overwriting /\
  c_parallelize (writing_conf true) = true /\
  heap_ok (hstart next_gen) /\ data_is (writing_conf true) (Some 0) (hs_mem (hstart next_gen)).
Proof.
  split; [intros r w; split; reflexivity|]. split; [intros H; specialize (H [] []); discriminate H|]. split; [vm_compute; reflexivity|].
  split; [split; [constructor|split; [constructor|exact I]]|exact (writing_data true)].
Qed.

(** The caller's data changes, and the returned individual is one on which the cost function was
    never called. *)
Theorem C77_refuted : exists c (h : hooks unit (list arr)) hcost data ftol out s x s' r,
  same_calls h hcost /\ heap_ok s /\ data_is c (Some data) (hs_mem s) /\ hs_tr s = [] /\ hs_seen s = [] /\
  hminimize c h hcost (Some data) ftol out s = (Ok x, s') /\
  deref (hs_mem s') data <> deref (hs_mem s) data /\
  see (hs_mem s') (hr_best_ind x) = BRow r /\ (forall v, ~ In (EvCall r v) (hs_tr s')).
Proof. exact writing_cost_seen. Qed.
Print Assumptions C77_refuted.
