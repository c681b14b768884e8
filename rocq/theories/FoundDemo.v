(** Cases for C124. *)
From Coq Require Import String List ZArith Bool Lia Reals Lra.
From Flocq Require Import Core IEEE754.BinarySingleNaN.
From Verif Require Import PyBase B64 B64More NdArray Eda EdaInv Spec LoopObs TopK Rand RandThms Models ModelThms Chance Inits Stock StockInv StockAll
  MaxLik Mean Found FoundBest FoundTime Demo DemoModels DemoStock DemoExt.
Import ListNotations.
Open Scope R_scope.

(** The numbers drawn are read off a tape. *)
Definition tape_reader : rng (list Z) :=
  mkRng (fun r c w => (fun i j => unit53 (nth (i * c + j) w 0%Z), skipn (r * c) w)) (fun _ _ w => (fun _ _ => Z2f 0, w)) (fun _ _ w => (fun _ => 0%nat, w))
        (fun _ _ _ w => (Ok (fun _ _ => Z2f 0), w)).
Definition tape_env : env nat (list Z) :=
  mkEnv tape_reader seq_sum (fun _ => "0"%string) argsort_ref (mkPool 0 (fun i => i) (fun _ => 0%nat)) (fun _ _ => 0%nat)
        (fun _ d _ w => (Ok tt, (a_len d, w))) (fun _ _ _ w => (Raise ValueError, w)).
Definition tape_args : args := mkArgs 4 3 3 2 (PyF DemoModels.half) (PyF DemoModels.half) false false None.
(** A bit string costs its first bit. *)
Definition first_bit (r : row) : f64 := match r with CI z :: _ => Z2f z | _ => Z2f 0 end.

Lemma found_met :
  tape_rng (e_rng tape_env) /\ argsort_ok (e_argsort tape_env) /\ prob quarter /\ prob three_quarters /\ flt quarter three_quarters = true /\
  0 < B2R quarter /\ B2R three_quarters < 1 /\
  int_times (g_size_gen tape_args) (g_alpha tape_args) = Ok 2%Z /\ (g_max_iter tape_args <= g_dead_iter tape_args)%Z /\
  (forall r, bit_row 2 r -> isnan (first_bit r) = false /\ fle (first_bit (bits [false; true])) (first_bit r) = true) /\
  exists o r s, construct tape_env (UMDAd None quarter three_quarters) tape_args = Ok o /\ used tape_env o o /\
    run tape_env o (fun r w => (Ok (NF (first_bit r)), w)) (Z2f 0) false (repeat 0%Z (all_draws tape_args)) = (Ok r, s) /\
    (Nat.eqb (List.length (gens (s_tr s))) 3 && evaluates [true; true] (s_tr s) && negb (evaluates [false; true] (s_tr s)))%bool = true.
Proof.
  split; [intros r c w; reflexivity|]. split; [apply argsort_ref_ok|]. split; [split; reflexivity|]. split; [split; reflexivity|]. split; [reflexivity|].
  split; [rewrite <- Z2f_0_R; apply flt_fin; reflexivity|]. split; [rewrite <- fone_R; apply flt_fin; reflexivity|]. split; [reflexivity|]. split; [discriminate|]. split.
  - intros r [Hl Hb]. destruct r as [|c r]; [discriminate|]. assert (Hc : c = CI 0 \/ c = CI 1) by exact (Forall_inv Hb).
    destruct Hc as [->| ->]; split; reflexivity.
  - destruct (ran_ok tape_env (construct tape_env (UMDAd None quarter three_quarters) tape_args) (fun r w => (Ok (NF (first_bit r)), w)) (Z2f 0) (repeat 0%Z (all_draws tape_args))
      (fun _ tr => Nat.eqb (List.length (gens tr)) 3 && evaluates [true; true] tr && negb (evaluates [false; true] tr))%bool) as (o & r & s & A & B & C);
      [vm_compute; reflexivity|]. exists o, r, s. split; [exact A|]. split; [constructor|]. split; [exact B|exact C].
Qed.

Lemma waits_met :
  tape_rng (e_rng tape_env) /\ prob quarter /\ prob three_quarters /\ 0 < B2R quarter /\ B2R three_quarters < 1 /\
  int_times (g_size_gen tape_args) (g_alpha tape_args) = Ok 2%Z /\
  exists o r s, construct tape_env (UMDAd None quarter three_quarters) tape_args = Ok o /\ used tape_env o o /\
    run tape_env o (fun r w => (Ok (NF (first_bit r)), w)) (Z2f 0) false (repeat 0%Z (all_draws tape_args)) = (Ok r, s) /\
    (Nat.eqb (waits [true; true] (s_tr s)) 0 && Nat.eqb (waits [false; true] (s_tr s)) 3)%bool = true.
Proof.
  destruct found_met as (A & _ & B & C & _ & D & F & G & _). repeat (split; [assumption|]).
  destruct (ran_ok tape_env (construct tape_env (UMDAd None quarter three_quarters) tape_args) (fun r w => (Ok (NF (first_bit r)), w)) (Z2f 0) (repeat 0%Z (all_draws tape_args))
    (fun _ tr => Nat.eqb (waits [true; true] tr) 0 && Nat.eqb (waits [false; true] tr) 3)%bool) as (o & r & s & H & I & J);
    [vm_compute; reflexivity|]. exists o, r, s. split; [exact H|]. split; [constructor|]. split; [exact I|exact J].
Qed.
