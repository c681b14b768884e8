(** What the archive algorithms learn from in every run, also the ones that raise. *)
From Coq Require Import String List ZArith Bool Lia.
From Verif Require Import PyBase B64 NdArray Eda EdaInv Spec LoopObs TopK Rand Models Inits Trunc Stock StockInv StockAll StockArchive StockMore ArchiveEvery Demo DemoModels DemoStock.
Import ListNotations.
Open Scope nat_scope.

(* ------------------------------ C45 ------------------------------ *)
Theorem C45_every : forall (X W : Type) (E : env X W) A g (l : nat) o t cost a ftol out w r s,
  construct E A g = Ok o -> archive_l A = Some (PyI (Z.of_nat l)) -> 1 <= l ->
  (0 <= g_size_gen g <= 2 ^ 53)%Z -> factor (g_alpha g) -> int_times (g_size_gen g) (g_alpha g) = Ok t ->
  (forall d, g_init_data g = Some d -> a_dt d = DFloat /\ Z.to_nat t <= a_len d) ->
  samples_floats E (archive_class A) (g_size_gen g) -> argsort_ok (e_argsort E) ->
  run_in E a o cost ftol out w = (r, s) ->
  Forall (fun e => List.length e = Z.to_nat t) (elites (s_tr s)) /\
  List.length (learns (s_tr s)) <= List.length (elites (s_tr s)) <= S (List.length (learns (s_tr s))) /\
  forall k d, nth_error (learns (s_tr s)) k = Some d ->
    a_rows d = concat (lastn l (firstn (S k) (elites (s_tr s)))) /\ a_len d = Nat.min l (S k) * Z.to_nat t.
Proof. exact (fun X W => @archive_every X W). Qed.
Print Assumptions C45_every.

(** A run of SPEDA that raises in its third generation, after two trainings. *)
Example C45_every_met :
  let failing := fun (r : row) (w : unit) => match r with [CF x] => if fle x (Z2f (-3)) then (Raise ValueError, w) else cost0 r w | _ => cost0 r w end in
  samples_floats env0 (archive_class (speda (PyI 2))) 4 /\
  exists o, construct env0 (speda (PyI (Z.of_nat 2))) (demo_args 4 1 None) = Ok o /\
  fst (run env0 o failing ftol_default false tt) = Raise ValueError /\
  map a_len (learns (s_tr (snd (run env0 o failing ftol_default false tt)))) = [2; 4].
Proof.
  intros failing. split; [apply env0_floats|]. eexists. split; [reflexivity|]. split; vm_compute; reflexivity.
Qed.
