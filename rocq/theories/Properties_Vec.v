(** Cost functions that return arrays. *)
From Coq Require Import String List ZArith Bool Lia.
From Verif Require Import PyBase B64 NdArray Eda VecEda VecThms VecShape VecDemo Demo.
Import ListNotations.
Open Scope nat_scope.

(* ------------------------------ C122 ------------------------------ *)
(** A cost function that puts its number into an array of one entry: the same calls, selections,
    training sets, exceptions, model and world; every cost reported is the array of one entry.
    Serially or in parallel. *)
Theorem C122_boxed : forall (S W : Type) (c : cfg) (h : hooks S W) ftol out s,
  vminimize c h (fun r w => let (v, w') := h_cost h r w in (rmap box v, w')) ftol out (box_st s)
  = (rmap box_result (fst (minimize c h ftol out s)), box_st (snd (minimize c h ftol out s))).
Proof. exact (fun S W => @boxed_costs S W). Qed.
Print Assumptions C122_boxed.

(** A run of two iterations or more that returns: every call of the cost function returned one entry. *)
Theorem C122_returns : forall (S W : Type) (c : cfg) (h : hooks S W) (cost : row -> W -> res (vec num) * W) ftol out s r s',
  vminimize c h cost ftol out s = (Ok r, s') -> (2 <= c_max_iter c)%Z ->
  exists t, vs_tr s' = vs_tr s ++ t /\ forall x v, In (VCall x v) t -> vlen v = 1.
Proof. exact (fun S W => @returns_one_entry S W). Qed.
Print Assumptions C122_returns.

(** Several entries, and two rows or more in the first generation: ValueError, or the exception of
    the cost function; nothing is selected, trained or printed. *)
Theorem C122_several : forall (S W : Type) (c : cfg) (h : hooks S W) (cost : row -> W -> res (vec num) * W) ftol out s r s' g w,
  (match c_init_data c with Some d => Ok d = Ok g /\ vs_w s = w | None => h_init h (vs_w s) = (Ok g, w) end) ->
  2 <= List.length (a_rows g) -> (forall x w v, fst (cost x w) = Ok v -> 2 <= vlen v) ->
  vminimize c h cost ftol out s = (r, s') ->
  vs_pm s' = vs_pm s /\
  (r = Raise ValueError \/ exists e, r = Raise e /\ exists x w, fst (cost x w) = Raise e) /\
  exists t, vs_tr s' = vs_tr s ++ t /\ forall e, In e t -> match e with VCall _ _ | VGen _ _ _ => True | _ => False end.
Proof. exact (fun S W => @several_entries S W). Qed.
Print Assumptions C122_several.

(** ... and when no call raises and all arrays have the same length, only after every row has been paid for
    (in parallel: when there are at least as many rows as cores). *)
Theorem C122_paid : forall (S W : Type) (c : cfg) (h : hooks S W) (cost : row -> W -> res (vec num) * W) ftol out s r s' g w m,
  (match c_init_data c with Some d => Ok d = Ok g /\ vs_w s = w | None => h_init h (vs_w s) = (Ok g, w) end) ->
  2 <= List.length (a_rows g) -> (c_parallelize c = false \/ cpu_count (h_pool h) <= List.length (a_rows g)) -> 2 <= m -> (forall x w, exists v, fst (cost x w) = Ok v /\ vlen v = m) ->
  vminimize c h cost ftol out s = (r, s') ->
  r = Raise ValueError /\ exists rets vals, List.length rets = List.length (a_rows g) /\
    vs_tr s' = vs_tr s ++ map (fun p => VCall (fst p) (snd p)) (combine (a_rows g) rets) ++ [VGen g rets vals].
Proof. exact (fun S W => @several_calls S W). Qed.
Print Assumptions C122_paid.

Example C122_met :
  (c_parallelize demo_cfg = false /\ (2 <= c_max_iter demo_cfg)%Z /\
   exists r s', vminimize demo_cfg demo_hooks boxed_cost ftol_default true (box_st demo_start) = (Ok r, s') /\ Nat.eqb (List.length (vr_history r)) 5 = true) /\
  (c_parallelize par_cfg = true /\ (2 <= c_max_iter par_cfg)%Z /\
   exists r s', vminimize par_cfg par_hooks boxed_cost ftol_default true (box_st demo_start) = (Ok r, s') /\ Nat.eqb (List.length (vr_history r)) 5 = true) /\
  exists g w, h_init par_hooks (vs_w (box_st demo_start)) = (Ok g, w) /\ c_init_data par_cfg = None /\ 2 <= List.length (a_rows g) /\
    cpu_count (h_pool par_hooks) <= List.length (a_rows g) /\ cpu_count (h_pool par_hooks) = 2 /\
    (forall x w, exists v, fst (doubled_cost x w) = Ok v /\ vlen v = 2).
Proof.
  exact (conj (conj eq_refl (conj (Zle_bool_imp_le 2 10 eq_refl) boxed_run))
        (conj (conj eq_refl (conj (Zle_bool_imp_le 2 10 eq_refl) boxed_run_par)) doubled_hyps)).
Qed.
