(** The random numbers a run uses do not depend on the cost function. *)
From Coq Require Import String List ZArith Bool Lia.
From Verif Require Import PyBase B64 B64More NdArray Eda EdaInv Spec LoopThms Select Rand Models ModelThms Inits Trunc Stock StockInv StockAll StockCat CommonDraws CommonStock
  Demo DemoModels DemoStock LostCatDemo.
Import ListNotations.
Open Scope nat_scope.

(* ------------------------------ C128 ------------------------------ *)
(** All algorithms: the initial generation is determined by the settings and the state of the
    generator before the run. *)
Theorem C128_initial : forall (X W : Type) (E : env X W) A g (o0 : optimiser X), construct E A g = Ok o0 ->
  exists init : W -> res arr, forall o cost a ftol out w r s, used E o0 o -> run_in E a o cost ftol out w = (r, s) ->
  forall gen vals, nth_error (gens (s_tr s)) 0 = Some (gen, vals) -> init w = Ok gen.
Proof. exact (fun X W => @first_common X W). Qed.
Print Assumptions C128_initial.

(** UMDAc, PBIL, UMDAd and UMDAcat, with a cost function that draws nothing or is called in other
    processes: generation k + 1 is determined by the k-th training set, k, the settings and the
    state of the generator before the run. *)
Theorem C128_next : forall (X W : Type) (E : env X W) A g (o0 : optimiser X), numpy_only A -> construct E A g = Ok o0 ->
  exists draw : nat -> W -> arr -> res arr, forall o cost a ftol out w r s,
  used E o0 o -> (g_parallelize g = true \/ forall r w, snd (cost r w) = w) -> run_in E a o cost ftol out w = (r, s) ->
  forall k gen vals, nth_error (gens (s_tr s)) (S k) = Some (gen, vals) ->
  exists d, nth_error (learns (s_tr s)) k = Some d /\ draw k w d = Ok gen.
Proof. exact (fun X W => @next_common X W). Qed.
Print Assumptions C128_next.

(** The state the run leaves the generator in is determined by the number of generations. *)
Theorem C128_left : forall (X W : Type) (E : env X W) A g (o0 : optimiser X), numpy_only A -> construct E A g = Ok o0 ->
  exists left : nat -> W -> W, forall o cost a ftol out w r s,
  used E o0 o -> (g_parallelize g = true \/ forall r w, snd (cost r w) = w) -> run_in E a o cost ftol out w = (Ok r, s) ->
  s_w s = left (List.length (r_history r)) w.
Proof. exact (fun X W => @left_common X W). Qed.
Print Assumptions C128_left.

(** UMDAc: one matrix of normal numbers per generation, the same for all cost functions. *)
Theorem C128_umdac : forall (X W : Type) (E : env X W) g lo hi vector lf wn (o0 : optimiser X), construct E (UMDAc lo hi vector lf wn) g = Ok o0 ->
  exists z : nat -> W -> nat -> nat -> f64, forall o cost a ftol out w r s,
  used E o0 o -> (g_parallelize g = true \/ forall r w, snd (cost r w) = w) -> run_in E a o cost ftol out w = (r, s) ->
  forall k gen vals, nth_error (gens (s_tr s)) (S k) = Some (gen, vals) ->
  exists d, nth_error (learns (s_tr s)) k = Some d /\
  forall i j, i < Z.to_nat (g_size_gen g) -> j < Z.to_nat (g_nvars g) -> exists x, num_col d j = Ok x /\
    nth_error (nth i (a_rows gen) []) j =
    Some (CF (fadd (mean (b64_ops (e_sum E)) x) (fmul (raise_to (b64_ops (e_sum E)) lf (std (b64_ops (e_sum E)) x)) (z k w i j)))).
Proof. exact (fun X W => @umdac_common X W). Qed.
Print Assumptions C128_umdac.

Theorem C128_pbil : forall (X W : Type) (E : env X W) g lo hi vector lf wn (o0 : optimiser X), construct E (PBIL lo hi vector lf wn) g = Ok o0 ->
  exists z : nat -> W -> nat -> nat -> f64, forall o cost a ftol out w r s,
  used E o0 o -> (g_parallelize g = true \/ forall r w, snd (cost r w) = w) -> run_in E a o cost ftol out w = (r, s) ->
  forall k gen vals, nth_error (gens (s_tr s)) (S k) = Some (gen, vals) ->
  exists d, nth_error (learns (s_tr s)) k = Some d /\
  forall i j, i < Z.to_nat (g_size_gen g) -> j < Z.to_nat (g_nvars g) -> exists x b1 b2,
    num_col d j = Ok x /\ nth_error x 0 = Some b1 /\ nth_error x 1 = Some b2 /\
    nth_error (nth i (a_rows gen) []) j =
    Some (CF (fadd (fadd (fmul (fsub (Z2f 1) (num_to_f (g_alpha g))) (mean (b64_ops (e_sum E)) x))
                         (fmul (num_to_f (g_alpha g)) (fsub (fadd b1 b2) (last x b1))))
                   (fmul (raise_to (b64_ops (e_sum E)) lf (std (b64_ops (e_sum E)) x)) (z k w i j)))).
Proof. exact (fun X W => @pbil_common X W). Qed.
Print Assumptions C128_pbil.

(** UMDAd: one matrix of uniform numbers per generation. *)
Theorem C128_umdad : forall (X W : Type) (E : env X W) g vector lo hi (o0 : optimiser X), construct E (UMDAd vector lo hi) g = Ok o0 ->
  (forall v, vector = Some v -> List.length v = Z.to_nat (g_nvars g)) ->
  (forall d, g_init_data g = Some d -> bit_arr (Z.to_nat (g_nvars g)) d) ->
  exists u : nat -> W -> nat -> nat -> f64, forall o cost a ftol out w r s,
  used E o0 o -> (g_parallelize g = true \/ forall r w, snd (cost r w) = w) -> run_in E a o cost ftol out w = (r, s) ->
  forall k gen vals, nth_error (gens (s_tr s)) (S k) = Some (gen, vals) ->
  exists d, nth_error (learns (s_tr s)) k = Some d /\
  forall i j, i < Z.to_nat (g_size_gen g) -> j < Z.to_nat (g_nvars g) -> exists p,
    clamped lo hi (fdiv (Z2f (Z.of_nat (ones_in j (a_rows d)))) (Z2f (Z.of_nat (List.length (a_rows d))))) p /\
    nth_error (nth i (a_rows gen) []) j = Some (CI (if flt (u k w i j) p then 1 else 0)%Z).
Proof. exact (fun X W => @umdad_common X W). Qed.
Print Assumptions C128_umdad.

(** Minimising and maximising the number of ones from the same tape: different training sets, and
    the same rest of the tape.  A cost function that reads the tape itself leaves another rest. *)
Example C128_met :
  let ones := fun r : row => fold_right (fun c n => match c with CI z => (z + n)%Z | _ => n end) 0%Z r in
  let up := fun (r : row) (w : list Z) => (Ok (NI (- ones r)), w) in
  let down := fun (r : row) (w : list Z) => (Ok (NI (ones r)), w) in
  let reads := fun (r : row) (w : list Z) => (Ok (NI (ones r)), tl w) in
  let g := mkArgs 4 3 3 2 (PyF half) (PyF half) false false None in
  let tape := List.concat (repeat [0; 2 ^ 52; 2 ^ 51; 2 ^ 52 + 2 ^ 51; 3]%Z 10) in
  let first_bits := fun tr => map (fun d => map ones (a_rows d)) (learns tr) in
  numpy_only (UMDAd None (Z2f 0) (Z2f 1)) /\ (forall r w, snd (up r w) = w) /\ (forall r w, snd (down r w) = w) /\
  exists o, construct cyclic_env (UMDAd None (Z2f 0) (Z2f 1)) g = Ok o /\
  let s1 := snd (run cyclic_env o up (Z2f 0) false tape) in
  let s2 := snd (run cyclic_env o down (Z2f 0) false tape) in
  let s3 := snd (run cyclic_env o reads (Z2f 0) false tape) in
  first_bits (s_tr s1) <> first_bits (s_tr s2) /\ List.length (gens (s_tr s1)) = 3 /\ List.length (gens (s_tr s2)) = 3 /\
  s_w s1 = s_w s2 /\ s_w s1 = skipn 24 tape /\ s_w s3 <> s_w s2.
Proof.
  intros ones up down reads g tape first_bits. split; [exact I|]. split; [reflexivity|]. split; [reflexivity|].
  eexists. split; [reflexivity|]. split; [vm_compute; discriminate|]. split; [vm_compute; reflexivity|]. split; [vm_compute; reflexivity|].
  split; [vm_compute; reflexivity|]. split; [vm_compute; reflexivity|]. vm_compute. discriminate.
Qed.
