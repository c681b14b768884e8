(** Concrete runs with array-valued cost functions. *)
From Coq Require Import String List ZArith Bool Lia.
From Verif Require Import PyBase B64 NdArray Eda VecEda VecThms VecShape Demo.
Import ListNotations.

(** The cost function of the demo run, in an array with one entry. *)
Definition boxed_cost (r : row) (w : list arr) : res (vec num) * list arr := let (v, w') := h_cost demo_hooks r w in (rmap box v, w').
(** ... twice, in an array with two entries. *)
Definition doubled_cost (r : row) (w : list arr) : res (vec num) * list arr := (Ok (first_cell r, [first_cell r]), w).

(** The demo run evaluated by two workers. *)
Definition par_cfg : cfg := conf 4 10 2 true None None.
Definition par_hooks : hooks unit (list arr) := scripted first_cell 2.

Lemma boxed_run_of c h : run_check c h ftol_default true demo_start (fun r _ => Nat.eqb (List.length (r_history r)) 5) = true ->
  exists r s', vminimize c h (fun r w => let (v, w') := h_cost h r w in (rmap box v, w')) ftol_default true (box_st demo_start) = (Ok r, s') /\
  Nat.eqb (List.length (vr_history r)) 5 = true.
Proof.
  intros Hrun. rewrite (boxed_costs c h).
  destruct (run_check_completes c h ftol_default true demo_start _ eq_refl Hrun) as [r [tr [[_ [s' [E _]]] H]]].
  rewrite E. cbn [fst snd rmap]. eexists. eexists. split; [reflexivity|]. cbn [box_result vr_history]. rewrite map_length. exact H.
Qed.
Lemma boxed_run : exists r s', vminimize demo_cfg demo_hooks boxed_cost ftol_default true (box_st demo_start) = (Ok r, s') /\
  Nat.eqb (List.length (vr_history r)) 5 = true.
Proof. apply (boxed_run_of demo_cfg demo_hooks). vm_compute. reflexivity. Qed.
Lemma boxed_run_par : exists r s', vminimize par_cfg par_hooks boxed_cost ftol_default true (box_st demo_start) = (Ok r, s') /\
  Nat.eqb (List.length (vr_history r)) 5 = true.
Proof. apply (boxed_run_of par_cfg par_hooks). vm_compute. reflexivity. Qed.

Lemma doubled_hyps : exists g w, h_init par_hooks (vs_w (box_st demo_start)) = (Ok g, w) /\ c_init_data par_cfg = None /\ (2 <= List.length (a_rows g))%nat /\
  (cpu_count (h_pool par_hooks) <= List.length (a_rows g))%nat /\ cpu_count (h_pool par_hooks) = 2%nat /\
  (forall x w, exists v, fst (doubled_cost x w) = Ok v /\ vlen v = 2%nat).
Proof.
  eexists. eexists. split; [reflexivity|]. split; [reflexivity|]. split; [cbn; lia|]. split; [apply Nat.leb_le; reflexivity|]. split; [reflexivity|]. intros x w. eexists. split; reflexivity.
Qed.
