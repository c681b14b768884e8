(** C09 for every optimiser: the number of evaluations reported and the calls made. *)
From Coq Require Import String List ZArith Bool Lia.
From Verif Require Import PyBase B64 NdArray Eda Spec Rand Models Inits Stock StockInv StockAll FevCount Demo DemoModels DemoStock.
Import ListNotations.
Open Scope Z_scope.

(* ------------------------------ C09 ------------------------------ *)
(** Whatever model and initialiser the optimiser has been given: the generations after the first
    have size_gen individuals, so has the first without init_data, and the calls of the cost
    function are n_fev corrected by the rows init_data has too many or too few. *)
Theorem C09_sizes : forall X W (E : env X W)
  (library_rows : forall k x size w g w', e_xsample E k x size w = (Ok g, w') -> a_len g = Z.to_nat size)
  (o : optimiser X) a cost ftol out w r s
  (returned : run_in E a o cost ftol out w = (Ok r, s)),
  Forall2 (fun k gv => Z.of_nat (a_len (fst gv)) =
    match k, c_init_data (op_cfg o) with O, Some d => Z.of_nat (a_len d) | _, _ => c_size_gen (op_cfg o) end)
    (seq 0 (List.length (gens (s_tr s)))) (gens (s_tr s)) /\
  Z.of_nat (List.length (calls (s_tr s))) =
    r_nfev r + (match c_init_data (op_cfg o) with Some d => Z.of_nat (a_len d) | None => c_size_gen (op_cfg o) end - c_size_gen (op_cfg o)).
Proof. exact (fun X W => @counted X W). Qed.
Print Assumptions C09_sizes.

(** So n_fev is the number of calls exactly if init_data, when given, has size_gen rows. *)
Theorem C09_exactly : forall X W (E : env X W) (o : optimiser X) a cost ftol out w r s
  (library_rows : forall k x size w g w', e_xsample E k x size w = (Ok g, w') -> a_len g = Z.to_nat size)
  (returned : run_in E a o cost ftol out w = (Ok r, s)),
  r_nfev r = Z.of_nat (List.length (calls (s_tr s))) <->
  match c_init_data (op_cfg o) with Some d => Z.of_nat (a_len d) = c_size_gen (op_cfg o) | None => True end.
Proof. exact (fun X W => @counted_iff X W). Qed.
Print Assumptions C09_exactly.

(** A run without data calls the cost function eight times and says so; one with two rows of data
    six times, and still reports eight. *)
Example C09_met :
  (forall k x size w g w', e_xsample env0 k x size w = (Ok g, w') -> a_len g = Z.to_nat size) /\
  (exists o r s, construct env0 umdac0 (demo_args 5 1 None) = Ok o /\ run env0 o cost0 ftol_default false tt = (Ok r, s) /\
     Z.eqb (r_nfev r) 8 && Nat.eqb (List.length (calls (s_tr s))) 8 = true) /\
  (exists o r s, construct env0 umdac0 (demo_args 5 1 (Some (mkArr DFloat 1 [[CF half]; [CF (Z2f 1)]]))) = Ok o /\
     run env0 o cost0 ftol_default false tt = (Ok r, s) /\
     Z.eqb (r_nfev r) 8 && Nat.eqb (List.length (calls (s_tr s))) 6 = true).
Proof.
  split; [|split].
  - intros k x size w g w' H. exact (proj2 (env0_floats k size x w g w' H)).
  - apply (ran_ok env0 _ cost0 ftol_default tt (fun r tr => Z.eqb (r_nfev r) 8 && Nat.eqb (List.length (calls tr)) 8)). vm_compute. reflexivity.
  - apply (ran_ok env0 _ cost0 ftol_default tt (fun r tr => Z.eqb (r_nfev r) 8 && Nat.eqb (List.length (calls tr)) 6)). vm_compute. reflexivity.
Qed.
