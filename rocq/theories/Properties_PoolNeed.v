(** C15: evaluating in parallel needs an individual for every core. *)
From Coq Require Import List ZArith Bool Lia.
From Verif Require Import PyBase B64 NdArray Eda Spec LoopThms LoopFail Rand Models Inits Stock StockInv StockAll PoolNeed Demo DemoModels DemoStock DemoPool.
Import ListNotations.
Open Scope Z_scope.

(* ------------------------------ C15 ------------------------------ *)
(** Every generation that a run evaluates in parallel has at least cpu_count() individuals, whether
    the run returns or raises: a smaller one is where it raises. *)
Theorem C15_pool_every : forall (S W : Type) (c : cfg) (h : hooks S W) ftol out s r tr
  (ran : executes c h ftol out s r tr)
  (parallel : c_parallelize c = true),
  Forall (fun gv => (cpu_count (h_pool h) <= a_len (fst gv))%nat) (gens tr).
Proof. exact (fun S W => @pool_every S W). Qed.
Print Assumptions C15_pool_every.

(** So minimize returns only if the initial individuals are at least cpu_count(), and so is
    size_gen as soon as there is a second generation. *)
Theorem C15_needs : forall X W (E : env X W)
  (library_rows : forall k x size w g w', e_xsample E k x size w = (Ok g, w') -> a_len g = Z.to_nat size)
  (o : optimiser X) a cost ftol out w r s
  (returned : run_in E a o cost ftol out w = (Ok r, s))
  (parallel : c_parallelize (op_cfg o) = true),
  Z.of_nat (cpu_count (e_pool E)) <= match c_init_data (op_cfg o) with Some d => Z.of_nat (a_len d) | None => c_size_gen (op_cfg o) end /\
  (List.length (r_history r) = 1%nat \/ Z.of_nat (cpu_count (e_pool E)) <= c_size_gen (op_cfg o)).
Proof. exact (fun X W => @pool_needs X W). Qed.
Print Assumptions C15_needs.

(** Four cores: four individuals are enough, three are not. *)
Example C15_needs_met :
  (forall k x size w g w', e_xsample env4 k x size w = (Ok g, w') -> a_len g = Z.to_nat size) /\
  cpu_count (e_pool env4) = 4%nat /\
  (exists o r s, construct env4 umdac0 (pool_args 4) = Ok o /\ run env4 o cost0 ftol_default false tt = (Ok r, s) /\
     c_parallelize (op_cfg o) && Nat.eqb (List.length (r_history r)) 2 = true) /\
  (match construct env4 umdac0 (pool_args 3) with
   | Ok o => match fst (run env4 o cost0 ftol_default false tt) with Raise ValueError => true | _ => false end
   | Raise _ => false
   end = true).
Proof.
  split; [|split; [reflexivity|split]].
  - intros k x size w g w' H. exact (proj2 (env0_floats k size x w g w' H)).
  - destruct (ran_ok env4 (construct env4 umdac0 (pool_args 4)) cost0 ftol_default tt (fun r _ => Nat.eqb (List.length (r_history r)) 2)) as (o & r & s & H1 & H2 & H3);
      [vm_compute; reflexivity|]. exists o, r, s. split; [exact H1|]. split; [exact H2|]. rewrite H3.
    pose proof (bt_cfg _ _ _ (construct_built env4 _ _ _ H1)) as B. apply eda_init_inv in B. destruct B as (_ & _ & _ & _ & _ & _ & _ & -> & _). reflexivity.
  - vm_compute. reflexivity.
Qed.
