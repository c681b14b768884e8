(** C47, continued: what w_noise does in SPEDA and MultivariateKEDA. *)
From Coq Require Import String List ZArith Bool.
From Verif Require Import PyBase B64 NdArray Eda Spec Rand Models Inits Stock StockAll StockMore ArchiveNoise Demo DemoModels DemoStock.
Import ListNotations.
Open Scope nat_scope.

(* ------------------------------ C47 ------------------------------ *)
(** Any two intensities for which noise is drawn at all give the same constructor exception or the
    same run: result, exception, evaluations, training sets, learned model, random numbers used. *)
Theorem C47_any_intensity : forall (X W : Type) (E : env X W) A g n n' cost a ftol out w
  (archive : uses_archive A = true)
  (intensity : noisy (stored_noise n))
  (other_intensity : noisy (stored_noise n')),
  match construct E (with_noise n A) g, construct E (with_noise n' A) g with
  | Ok o, Ok o' => fst (run_in E a o cost ftol out w) = fst (run_in E a o' cost ftol out w) /\
      s_tr (snd (run_in E a o cost ftol out w)) = s_tr (snd (run_in E a o' cost ftol out w)) /\
      s_pm (snd (run_in E a o cost ftol out w)) = s_pm (snd (run_in E a o' cost ftol out w)) /\
      s_w (snd (run_in E a o cost ftol out w)) = s_w (snd (run_in E a o' cost ftol out w))
  | Raise e, Raise e' => e = e'
  | _, _ => False
  end.
Proof. exact (fun X W => @archive_noise_values X W). Qed.
Print Assumptions C47_any_intensity.

(** Apart from the random numbers it uses up, noise makes no difference to a run that completes:
    with a generator that draws normals from a separate stream the run without noise is the same. *)
Theorem C47_only_draws : forall (X W : Type) (E : env X W) A g n cost a ftol out w o r s
  (archive : uses_archive A = true)
  (intensity : noisy (stored_noise n))
  (separate_stream : forall k l w, snd (g_gauss (e_rng E) k l w) = w)
  (constructed : construct E (with_noise n A) g = Ok o)
  (completes : run_in E a o cost ftol out w = (Ok r, s)),
  exists o', construct E (with_noise None A) g = Ok o' /\ run_in E a o' cost ftol out w = (Ok r, s).
Proof. exact (fun X W => @archive_noise_draws X W). Qed.
Print Assumptions C47_only_draws.

Example C47_noise_met : let A := SPEDA (num 0) (num 1) (PyI (Z.of_nat 2)) None in
  uses_archive A = true /\ noisy (stored_noise (Some (PyI 1))) /\ noisy (stored_noise (Some (PyF (lit 5 (-1))))) /\
  (forall k l w, snd (g_gauss (e_rng env0) k l w) = w) /\
  exists o r s, construct env0 (with_noise (Some (PyI 1)) A) (demo_args 4 1 None) = Ok o /\
    run env0 o cost0 ftol_default false tt = (Ok r, s) /\ Nat.eqb (List.length (learns (s_tr s))) 3 = true.
Proof.
  split; [reflexivity|]. split; [repeat split|]. split; [repeat split|]. split; [intros k l []; reflexivity|].
  apply (ran_ok env0 _ cost0 ftol_default tt (fun _ tr => Nat.eqb (List.length (learns tr)) 3)). vm_compute. reflexivity.
Qed.
