(** A run cut short in the middle of a generation. *)
From Coq Require Import String List ZArith Bool Lia Reals Lra.
From Flocq Require Import Core IEEE754.BinarySingleNaN.
From Verif Require Import PyBase B64 B64More NdArray Eda EdaInv Spec LoopObs Rand RandThms Models ModelThms Sign Stock StockInv StockGauss StockAll
  InitThms FloatSum FloatRun FloatStart Demo DemoModels DemoStock DemoRun.
Import ListNotations.
Open Scope nat_scope.

(** The world counts the calls; the generator answers 1/2 and 2. *)
Definition count_rng : rng nat := {|
  g_unif := fun _ _ w => (fun _ _ => half, w);
  g_gauss := fun _ _ w => (fun _ _ => Z2f 2, w);
  g_pick := fun n _ w => (fun _ => 1 mod n, w);
  g_mvn := fun _ _ _ w => (Ok (fun _ _ => Z2f 2), w)
|}.
Definition count_env : env nat nat :=
  mkEnv count_rng seq_sum (fun _ => "0"%string) argsort_ref (mkPool 0 (fun i => i) (fun _ => 0)) (fun _ _ => 0)
        (fun _ d _ w => (Ok tt, (a_len d, w))) (fun _ _ _ w => (Raise ValueError, w)).
(** The eleventh call raises. *)
Definition cut_cost (r : row) (w : nat) : res NdArray.num * nat := if Nat.eqb w 10 then (Raise ValueError, w) else (Ok (NI 7), S w).

Definition cut_ok (q : res (optimiser nat)) : bool :=
  match q with
  | Ok o => match run count_env o cut_cost ftol_default false 0 with
            | (Raise _, s) => Nat.eqb (List.length (gens (s_tr s))) 2 && Nat.eqb (List.length (calls (s_tr s))) 10 && Nat.eqb (List.length (learns (s_tr s))) 2
            | _ => false
            end
  | _ => false
  end.

Lemma cut_ok_true q : cut_ok q = true -> exists o e s, q = Ok o /\ run count_env o cut_cost ftol_default false 0 = (Raise e, s) /\
  List.length (gens (s_tr s)) = 2 /\ List.length (calls (s_tr s)) = 10 /\ List.length (learns (s_tr s)) = 2.
Proof.
  destruct q as [o|e]; cbn [cut_ok]; [|discriminate]. destruct (run count_env o cut_cost ftol_default false 0) as [[r|e] s] eqn:E; [discriminate|].
  rewrite !andb_true_iff, !Nat.eqb_eq. intros [[A B] C]. exists o, e, s. auto.
Qed.

Lemma cut_case : unif_ok (e_rng count_env) /\ gauss_within 2 (e_rng count_env) /\
  (exists o e s, construct count_env (UMDAc (num 0) (num 1) None half (Some (PyF quarter))) (demo_args 6 1 None) = Ok o /\
     run count_env o cut_cost ftol_default false 0 = (Raise e, s) /\
     List.length (gens (s_tr s)) = 2 /\ List.length (calls (s_tr s)) = 10 /\ List.length (learns (s_tr s)) = 2) /\
  (exists o e s, construct count_env (PBIL (num 0) (num 1) None half (Some (PyF quarter))) (demo_args 6 1 None) = Ok o /\
     run count_env o cut_cost ftol_default false 0 = (Raise e, s) /\
     List.length (gens (s_tr s)) = 2 /\ List.length (calls (s_tr s)) = 10 /\ List.length (learns (s_tr s)) = 2).
Proof.
  split. { intros r c w i j. cbn. split; vm_compute; reflexivity. }
  split. { intros a b w i j _ _. cbn [count_env e_rng count_rng g_gauss fst]. destruct (Z2f_exact 2) as [E F]; [lia|]. split; [exact F|]. rewrite E, Rabs_right; lra. }
  split; apply cut_ok_true; vm_compute; reflexivity.
Qed.
