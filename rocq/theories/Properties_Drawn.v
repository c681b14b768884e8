(** Where the generations come from: properties of EDA.minimize for every model, and what they
    mean for the algorithms whose models need no library. *)
From Coq Require Import String List ZArith Bool Lia.
From Verif Require Import PyBase B64 NdArray Eda EdaInv Spec LoopDrawn Rand RandThms Models ModelThms CatThms Inits InitThms Trunc
  Stock StockInv StockCat StockAll DrawnStock Demo DemoModels DemoStock DemoExt.
Import ListNotations.
Open Scope nat_scope.

(* ------------------------------ C93 ------------------------------ *)
(** Generation 0 is the initial data or the initialiser's sample; generation k is a sample of
    the model trained on the first k training sets, in order and on nothing else. *)
Theorem C93_chain : forall (S W : Type) (c : cfg) (h : hooks S W) ftol out s r tr,
  completes c h ftol out s r tr -> forall k g vals, nth_error (gens tr) k = Some (g, vals) ->
  match k with
  | 0 => match c_init_data c with Some d => g = d | None => exists w w', h_init h w = (Ok g, w') end
  | Datatypes.S _ => List.length (firstn k (learns tr)) = k /\
      exists p w w', trained h (s_pm s) (firstn k (learns tr)) p /\ h_sample h p w = (Ok g, w')
  end.
Proof. exact (fun S W => @chain_lemma S W). Qed.
Print Assumptions C93_chain.

(** No generation is evaluated before the training that produces it. *)
Theorem C93_order : forall (S W : Type) (c : cfg) (h : hooks S W) ftol out s r tr,
  completes c h ftol out s r tr -> each_event (drawn_ok c h (s_pm s)) tr.
Proof. exact (fun S W => @drawn_lemma S W). Qed.
Print Assumptions C93_order.

Example C93_met : exists r tr, completes demo_cfg demo_hooks ftol_default true demo_start r tr /\
  (Nat.eqb (List.length (gens tr)) 5 && Nat.eqb (List.length (learns tr)) 4) = true.
Proof. apply (run_check_completes demo_cfg demo_hooks _ _ demo_start (fun _ tr => (Nat.eqb (List.length (gens tr)) 5 && Nat.eqb (List.length (learns tr)) 4))); vm_compute; reflexivity. Qed.

(* ------------------------------ C94 ------------------------------ *)
Theorem C94_umdac : forall (X W : Type) (E : env X W) g lo hi vector lf wn o0 o cost a ftol out w r s,
  construct E (UMDAc lo hi vector lf wn) g = Ok o0 -> used E o0 o -> run_in E a o cost ftol out w = (r, s) ->
  forall k gen vals, nth_error (gens (s_tr s)) (S k) = Some (gen, vals) ->
  exists d, nth_error (learns (s_tr s)) k = Some d /\ umdac_next E lf (Z.to_nat (g_size_gen g)) (Z.to_nat (g_nvars g)) d gen.
Proof. exact (fun X W => @umdac_drawn X W). Qed.
Print Assumptions C94_umdac.

Theorem C94_pbil : forall (X W : Type) (E : env X W) g lo hi vector lf wn o0 o cost a ftol out w r s,
  construct E (PBIL lo hi vector lf wn) g = Ok o0 -> used E o0 o -> run_in E a o cost ftol out w = (r, s) ->
  forall k gen vals, nth_error (gens (s_tr s)) (S k) = Some (gen, vals) ->
  exists d, nth_error (learns (s_tr s)) k = Some d /\
    pbil_next E lf (num_to_f (g_alpha g)) (Z.to_nat (g_size_gen g)) (Z.to_nat (g_nvars g)) d gen.
Proof. exact (fun X W => @pbil_drawn X W). Qed.
Print Assumptions C94_pbil.

Theorem C94_umdad : forall (X W : Type) (E : env X W) g vector lo hi o0 o cost a ftol out w r s,
  construct E (UMDAd vector lo hi) g = Ok o0 -> used E o0 o ->
  (forall v, vector = Some v -> List.length v = Z.to_nat (g_nvars g)) ->
  (forall d, g_init_data g = Some d -> bit_arr (Z.to_nat (g_nvars g)) d) ->
  run_in E a o cost ftol out w = (r, s) ->
  forall k gen vals, nth_error (gens (s_tr s)) (S k) = Some (gen, vals) ->
  exists d, nth_error (learns (s_tr s)) k = Some d /\ umdad_next E lo hi (Z.to_nat (g_size_gen g)) (Z.to_nat (g_nvars g)) d gen.
Proof. exact (fun X W => @umdad_drawn X W). Qed.
Print Assumptions C94_umdad.

Theorem C94_emna : forall (X W : Type) (E : env X W) g lo hi lf uf wn z o0 o cost a ftol out w r s,
  construct E (EMNA lo hi lf uf wn z) g = Ok o0 -> used E o0 o -> run_in E a o cost ftol out w = (r, s) ->
  forall k gen vals, nth_error (gens (s_tr s)) (S k) = Some (gen, vals) ->
  exists d, nth_error (learns (s_tr s)) k = Some d /\ emna_next E lf uf (Z.to_nat (g_size_gen g)) (Z.to_nat (g_nvars g)) d gen.
Proof. exact (fun X W => @emna_drawn X W). Qed.
Print Assumptions C94_emna.

Theorem C94_umdacat : forall (X W : Type) (E : env X W) g values freq o0 o cost a ftol out w r s,
  construct E (UMDAcat values freq) g = Ok o0 -> used E o0 o ->
  argsort_ok (e_argsort E) -> unif_ok (e_rng E) -> (1 <= g_nvars g)%Z -> cats_ok values freq ->
  (0 <= g_size_gen g <= 2 ^ 53)%Z -> factor (g_alpha g) ->
  (forall d, g_init_data g = Some d -> cat_pop (Z.to_nat (g_nvars g)) values d) ->
  run_in E a o cost ftol out w = (r, s) ->
  forall k gen vals, nth_error (gens (s_tr s)) (S k) = Some (gen, vals) ->
  exists d, nth_error (learns (s_tr s)) k = Some d /\
    ((Z.of_nat (List.length (a_rows d)) <= 2 ^ 22)%Z -> umdacat_next E (Z.to_nat (g_size_gen g)) (Z.to_nat (g_nvars g)) d gen).
Proof. exact (fun X W => @umdacat_drawn X W). Qed.
Print Assumptions C94_umdacat.

Example C94_met :
  (exists o r s, construct env0 umdac0 (demo_args 3 2 None) = Ok o /\ run env0 o cost7 ftol_default false tt = (Ok r, s) /\ Nat.leb 2 (List.length (gens (s_tr s))) = true) /\
  (exists o r s, construct env0 (PBIL (num 0) (num 1) None half None) (demo_args 3 2 None) = Ok o /\
     run env0 o cost7 ftol_default false tt = (Ok r, s) /\ Nat.leb 2 (List.length (gens (s_tr s))) = true) /\
  (exists o r s, construct env0 (UMDAd (Some [half; half]) quarter three_quarters) (demo_args 3 2 None) = Ok o /\
     run env0 o cost7 ftol_default false tt = (Ok r, s) /\ Nat.leb 2 (List.length (gens (s_tr s))) = true) /\
  (exists o r s, construct env0 emna0 (demo_args 3 2 None) = Ok o /\ run env0 o cost7 ftol_default false tt = (Ok r, s) /\ Nat.leb 2 (List.length (gens (s_tr s))) = true) /\
  (cats_ok strings2 halves2 /\ factor (PyF half) /\ exists o r s, construct env0 (UMDAcat strings2 halves2) (demo_args 3 2 None) = Ok o /\
     run env0 o cost7 ftol_default false tt = (Ok r, s) /\ Nat.leb 2 (List.length (gens (s_tr s))) = true).
Proof.
  refine (conj _ (conj _ (conj _ (conj _ (conj strings2_ok (conj factor_half _))))));
    (apply (ran_ok env0 _ cost7 ftol_default tt (fun _ tr => Nat.leb 2 (List.length (gens tr)))); vm_compute; reflexivity).
Qed.
