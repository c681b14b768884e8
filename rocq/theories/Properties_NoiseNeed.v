(** C18: a run with noise needs enough individuals to select from. *)
From Coq Require Import List ZArith Bool Lia.
From Verif Require Import PyBase B64 NdArray Eda Spec LoopThms Rand Models Inits Stock StockInv StockAll NoiseNeed Demo DemoModels DemoStock DemoNoise.
Import ListNotations.
Open Scope Z_scope.

(* ------------------------------ C18 ------------------------------ *)
(** A run with noise that returns after more than one generation has selected truncation_length
    individuals from its first generation and the copy of its first individual, or just one. *)
Theorem C18_needs : forall (S W : Type) (c : cfg) (h : hooks S W) ftol out s r tr
  (returned : completes c h ftol out s r tr)
  (sort : argsort_ok (h_argsort h))
  (iterates : 2 <= c_max_iter c)
  (noise : py_eq_int (c_w_noise c) 0 = false)
  (matrix : py_eq_int (c_w_noise c) (-1) = false),
  exists g0 v0 rest, gens tr = (g0, v0) :: rest /\ (c_trunc_len c <= Z.of_nat (a_len g0) + 1 \/ c_trunc_len c = 1).
Proof. exact (fun S W => @noise_needs S W). Qed.
Print Assumptions C18_needs.

Example C18_needs_met : argsort_ok (h_argsort demo_hooks) /\ 2 <= c_max_iter demo_noise_cfg /\
  py_eq_int (c_w_noise demo_noise_cfg) 0 = false /\ py_eq_int (c_w_noise demo_noise_cfg) (-1) = false /\
  exists r tr, completes demo_noise_cfg demo_hooks ftol_default true demo_start r tr.
Proof.
  split; [apply argsort_ref_ok|]. split; [vm_compute; discriminate|]. split; [vm_compute; reflexivity|]. split; [vm_compute; reflexivity|].
  destruct (run_check_completes demo_noise_cfg demo_hooks ftol_default true demo_start (fun _ _ => true)) as (r & tr & H & _);
    [reflexivity|vm_compute; reflexivity|]. exists r, tr. exact H.
Qed.

(** So no call of minimize returns if truncation_length exceeds the initial individuals by two or
    more: init_data with too few rows, or without data an alpha above 1.  The truncation length of
    PBIL is size_gen. *)
Theorem C18_too_few : forall X W (E : env X W) A g (o0 o : optimiser X) p t a cost ftol out w
  (built : construct E A g = Ok o0)
  (used_before : used E o0 o)
  (sort : argsort_ok (e_argsort E))
  (iterates : 2 <= g_max_iter g)
  (given : passed_noise A = Some p)
  (noise : py_eq_int p 0 = false)
  (matrix : py_eq_int p (-1) = false)
  (length : int_times (g_size_gen g) (passed_alpha A g) = Ok t)
  (few : match g_init_data g with Some d => Z.of_nat (a_len d) | None => g_size_gen g end + 1 < t)
  (several : t <> 1),
  exists e, fst (run_in E a o cost ftol out w) = Raise e.
Proof. exact (fun X W => @noise_needs_stock X W). Qed.
Print Assumptions C18_too_few.

(** PBIL with size_gen 4 and two rows of data, and with three. *)
Example C18_too_few_met :
  argsort_ok (e_argsort env0) /\ passed_noise pbil_noise = Some (PyF quarter) /\ py_eq_int (PyF quarter) 0 = false /\ py_eq_int (PyF quarter) (-1) = false /\
  int_times (g_size_gen (demo_args 3 1 (Some two_rows))) (passed_alpha pbil_noise (demo_args 3 1 (Some two_rows))) = Ok 4 /\
  Z.of_nat (a_len two_rows) + 1 < 4 /\
  is_ok (construct env0 pbil_noise (demo_args 3 1 (Some two_rows))) = true /\
  (exists o r s, construct env0 pbil_noise (demo_args 3 1 (Some three_rows)) = Ok o /\ run env0 o cost0 ftol_default false tt = (Ok r, s) /\ true = true).
Proof.
  split; [exact argsort_ref_ok|]. split; [reflexivity|]. split; [vm_compute; reflexivity|]. split; [vm_compute; reflexivity|].
  split; [reflexivity|]. split; [cbn; lia|]. split; [vm_compute; reflexivity|].
  apply (ran_ok env0 _ cost0 ftol_default tt (fun _ _ => true)). vm_compute. reflexivity.
Qed.

(** UMDAc with size_gen 4 and alpha 2: eight individuals to select, at most five to select from. *)
Example C18_too_few_alpha_met :
  is_ok (construct env0 umda_noise double_args) = true /\ passed_noise umda_noise = Some (PyF quarter) /\
  int_times (g_size_gen double_args) (passed_alpha umda_noise double_args) = Ok 8 /\ g_init_data double_args = None /\ g_size_gen double_args + 1 < 8.
Proof. split; [vm_compute; reflexivity|]. split; [reflexivity|]. split; [reflexivity|]. split; [reflexivity|cbn; lia]. Qed.
