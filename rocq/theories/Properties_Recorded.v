(** What is recorded for a cost, whatever types the cost function returns. *)
From Coq Require Import String List ZArith Bool Lia.
From Verif Require Import PyBase B64 NdArray Eda EdaInv Spec LoopObs SelectAny LoopFail FailThms Recorded Demo.
Import ListNotations.

(* ------------------------------ C16 ------------------------------ *)
(** The cost recorded for an individual is the number returned, except that a float may be cut to
    an integer if the cost function has returned an integer for some individual. *)
Theorem C16_recorded_any : forall (S W : Type) (c : cfg) (h : hooks S W) ftol out s r tr,
  completes c h ftol out s r tr ->
  Forall2 (fun cl p => fst cl = fst p /\
    match snd cl with
    | NI z => snd p = Z2f z
    | NF x => snd p = x \/ ((exists r' z, In (r', NI z) (calls tr)) /\ snd p = Z2f (float_to_int64 x))
    end) (calls tr) (evaluated tr).
Proof. exact (fun S W => @recorded_any S W). Qed.
Print Assumptions C16_recorded_any.

(* ------------------------------ C17 ------------------------------ *)
(** The same for every elite member of every run ... *)
Theorem C17_elite_every : forall (S W : Type) (c : cfg) (h : hooks S W),
  argsort_ok (h_argsort h) -> (0 <= c_trunc_len c)%Z -> (0 <= c_elite_len c)%Z ->
  forall ftol out s r tr, executes c h ftol out s r tr ->
  each_event (fun before e => match e with
    | EvSelect train elite =>
        Forall (fun p => exists x v, Forall2 cell_copy x (fst p) /\ In (x, v) (calls before) /\
          match v with
          | NI z => snd p = Z2f z
          | NF y => snd p = y \/ ((exists r' z, In (r', NI z) (calls before)) /\ snd p = Z2f (float_to_int64 y))
          end) elite
    | _ => True
    end) tr.
Proof. exact (fun S W => @elite_recorded S W). Qed.
Print Assumptions C17_elite_every.

(** ... and for the solution returned. *)
Theorem C17_best_every : forall (S W : Type) (c : cfg) (h : hooks S W) ftol out s r tr,
  completes c h ftol out s r tr ->
  match r_best_ind r with
  | BRow x => exists v y, In (x, v) (calls tr) /\
      match v with
      | NI z => y = Z2f z
      | NF u => y = u \/ ((exists r' z, In (r', NI z) (calls tr)) /\ y = Z2f (float_to_int64 u))
      end /\ feq y (r_best_cost r) = true
  | BIdx _ => True
  end.
Proof. exact (fun S W => @best_recorded S W). Qed.
Print Assumptions C17_best_every.

(** A cost function that returns an int for 1.0 and the number itself otherwise: the run completes,
    its calls have both types, and one float is cut. *)
Example C16_mixed_met :
  let f := fun r : row => match r with CF x :: _ => if feq x fone then NI 1 else NF x | _ => NF fnan end in
  exists r tr, completes (conf 2 1 1 false None None) (scripted f 1) ftol_default true (start tt [col [fone; lit 1 (-1)]]) r tr /\
  match calls tr, evaluated tr with
  | (_, NI _) :: (_, NF u) :: _, _ :: (_, v) :: _ => negb (feq u v)
  | _, _ => false
  end = true.
Proof.
  intros f. apply (run_check_completes (conf 2 1 1 false None None) (scripted f 1) ftol_default true (start tt [col [fone; lit 1 (-1)]])
    (fun _ tr => match calls tr, evaluated tr with
                 | (_, NI _) :: (_, NF u) :: _, _ :: (_, v) :: _ => negb (feq u v)
                 | _, _ => false
                 end)); [reflexivity|vm_compute; reflexivity].
Qed.
