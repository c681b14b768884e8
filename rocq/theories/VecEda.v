(** [EDA.minimize] with a cost function that returns a one-dimensional numpy array instead of a
    number (eda.py:118-222), evaluated serially or in parallel.

    The cost function returns an array with at least one entry, all of one dtype (int64 or float64),
    of any length, which may differ from call to call.  Everything that does not look at costs is
    taken from [Eda.v].  Simplification: after [_truncation] the attribute [evaluations] is one-dimensional;
    it is kept as the column of its entries (nothing reads it before it is overwritten, and
    [np.append] flattens either). *)
From Coq Require Import List ZArith Bool String Lia.
From Verif Require Import PyBase B64 NdArray Eda.
Import ListNotations.
Open Scope nat_scope.

(** A nonempty array: its first entry and the others. *)
Definition vec (A : Type) : Type := A * list A.
(** Its entries. *)
Definition entries {A} (v : vec A) : list A := fst v :: snd v.
(** An operation on every entry. *)
Definition vmap {A B} (f : A -> B) (v : vec A) : vec B := (f (fst v), map f (snd v)).
(** [len(v)] *)
Definition vlen {A} (v : vec A) : nat := List.length (entries v).

(** Storing a result in a row of a buffer of width [m]: numpy accepts [m] entries, or a single one
    for all (np.apply_along_axis, eda.py:122). *)
Definition fit {A} (m : nat) (v : vec A) : res (vec A) :=
  if Nat.eqb (vlen v) m then Ok v
  else match snd v with [] => Ok (fst v, repeat (fst v) (Nat.pred m)) | _ => Raise ValueError end.

(** [a < b] on two arrays, entry by entry; a single entry is compared with all. *)
Definition vlt (a b : vec f64) : res (vec bool) :=
  if Nat.eqb (vlen a) (vlen b) then
    Ok (flt (fst a) (fst b), map (fun p => flt (fst p) (snd p)) (combine (snd a) (snd b)))
  else match snd a, snd b with
       | [], _ => Ok (vmap (fun x => flt (fst a) x) b)
       | _, [] => Ok (vmap (fun x => flt x (fst b)) a)
       | _, _ => Raise ValueError
       end.
(** The truth value of an array: ambiguous with more than one entry. *)
Definition truth (v : vec bool) : res bool := match snd v with [] => Ok (fst v) | _ => Raise ValueError end.
(** [if a < b] *)
Definition vlt_true (a b : vec f64) : res bool := (t <-? vlt a b ; truth t)%res.

(** [min(rows)]: Python's loop over the rows (eda.py:172, 194). *)
Fixpoint vmin_from (m : vec f64) (l : list (vec f64)) : res (vec f64) :=
  match l with
  | [] => Ok m
  | y :: l' => (b <-? vlt_true y m ; vmin_from (if b then y else m) l')%res
  end.
(** [min(rows)] (eda.py:172, 194). *)
Definition vmin (l : list (vec f64)) : res (vec f64) :=
  match l with [] => Raise ValueError | x :: l' => vmin_from x l' end.

(** A row of [evaluations == best] holds a True (eda.py:174, 197). *)
Definition some_equal (best row : vec f64) : bool := existsb (fun p => feq (fst p) (snd p)) (combine (entries row) (entries best)).

(** The acceptance test (eda.py:201). *)
Definition vaccept (ftol : f64) (local global : vec f64) : res bool := vlt_true local (vmap (fun g => fmul g (fadd fone ftol)) global).

(** The attributes (eda.py:56-63); costs are arrays. *)
Record vobj := mkVObj { v_gen : arr; v_evals : list (vec f64); v_elite : arr; v_evel : list f64; v_best_cost : vec f64; v_best_ind : bind }.
(** What is printed (eda.py:183-184, 211-216). *)
Inductive vprinted := VPrIter (it : Z) (best : vec f64) | VPrFinal (nfev : Z) (best : vec f64) (ind : bind).
(** The ghost trace, as in [Eda.v]. *)
Inductive vev :=
| VCall (r : row) (v : vec num)
| VGen (g : arr) (rets : list (vec num)) (vals : list (vec f64))
| VSelect (train elite : list (row * f64))
| VLearn (data : arr)
| VPrint (p : vprinted).
(** EdaResult (eda_result.py:7-42). *)
Record vresult := mkVResult { vr_best_ind : bind; vr_best_cost : vec f64; vr_nfev : Z; vr_history : list (vec f64); vr_settings : dict }.

Section Vec.
Context {S W : Type}.

(** State of the optimiser, as in [Eda.v]. *)
Record vst := mkVSt { vs_obj : vobj; vs_pm : S; vs_w : W; vs_tr : list vev }.
(** State and exception monad, as in [Eda.v]. *)
Definition VM (A : Type) := vst -> res A * vst.
(** A statement that changes nothing. *)
Definition vret {A} (a : A) : VM A := fun s => (Ok a, s).
(** [raise]. *)
Definition vraise {A} (e : exn) : VM A := fun s => (Raise e, s).
(** Two statements in sequence. *)
Definition vbind {A B} (m : VM A) (f : A -> VM B) : VM B :=
  fun s => match m s with (Ok a, s') => f a s' | (Raise e, s') => (Raise e, s') end.
(** An expression that reads no attribute. *)
Definition vlift {A} (r : res A) : VM A := fun s => (r, s).
(** Reading and assigning attributes of [self]. *)
Definition vget : VM vobj := fun s => (Ok (vs_obj s), s).
(** Reading and assigning attributes of [self]. *)
Definition vput (o : vobj) : VM unit := fun s => (Ok tt, mkVSt o (vs_pm s) (vs_w s) (vs_tr s)).
(** Extending the ghost trace. *)
Definition vlog (e : vev) : VM unit := fun s => (Ok tt, mkVSt (vs_obj s) (vs_pm s) (vs_w s) (vs_tr s ++ [e])).
(** A call that uses the random generator or user code. *)
Definition vworld {A} (f : W -> res A * W) : VM A := fun s => let (r, w') := f (vs_w s) in (r, mkVSt (vs_obj s) (vs_pm s) w' (vs_tr s)).

Local Notation "x <- a ; b" := (vbind a (fun x => b)) (at level 61, a at next level, right associativity).
Local Notation "a ;; b" := (vbind a (fun _ => b)) (at level 61, right associativity).

Variable c : cfg.
Variable h : hooks S W.                       (* its cost function is not used *)
Variable cost : row -> W -> res (vec num) * W. (* the user's cost function *)

(** One call of the cost function. *)
Definition vcall (r : row) : VM (vec num) := v <- vworld (cost r) ; vlog (VCall r v) ;; vret v.
(** The rows after the first: call, then store in the buffer made for the first result, of its
    dtype and width (np.apply_along_axis, eda.py:122). *)
Fixpoint vcall_rows (first : vec num) (rs : list row) : VM (list (vec num) * list (vec f64)) :=
  match rs with
  | [] => vret ([], [])
  | r :: rs' =>
      v <- vcall r ;
      x <- vlift (fit (vlen first) v) ;
      vs <- vcall_rows first rs' ;
      vret (v :: fst vs, vmap (store_as (fst first)) x :: snd vs)
  end.
(** [np.apply_along_axis(cost, 1, generation)] (eda.py:121-122). *)
Definition vapply_rows (rs : list row) : VM (list (vec num) * list (vec f64)) :=
  match rs with
  | [] => vraise ValueError
  | r :: rs' => v <- vcall r ; vs <- vcall_rows v rs' ; vret (v :: fst vs, vmap (store_as (fst v)) v :: snd vs)
  end.
(** A worker of the multiprocessing pool evaluates one chunk in its own copy of the world
    (utils.py:33-44). *)
Definition vrun_chunk (o : vobj) (p : S) (w : W) (chunk : list row) : res (list (vec num) * list (vec f64)) * W * list vev :=
  match vapply_rows chunk (mkVSt o p w []) with (r, s') => (r, vs_w s', vs_tr s') end.
(** [pool.map(unpacking_apply_along_axis, chunks)] (utils.py:24-25). *)
Fixpoint vrun_chunks (i : nat) (chunks : list (list row)) (o : vobj) (p : S) (ws : nat -> W)
  : list (res (list (vec num) * list (vec f64))) * list vev :=
  match chunks with
  | [] => ([], [])
  | ch :: chunks' =>
      let k := p_worker (h_pool h) i in
      match vrun_chunk o p (ws k) ch with
      | (r, w', tr) =>
          let (rs, trs) := vrun_chunks (Datatypes.S i) chunks' o p (fun k' => if Nat.eqb k' k then w' else ws k') in
          (r :: rs, tr ++ trs)
      end
  end.
(** [np.concatenate(individual_results)] (utils.py:30): the results of the chunks must have the
    same width. *)
Definition vconcat (l : list (list (vec f64))) : res (list (vec f64)) :=
  match List.concat l with
  | [] => Ok []
  | x :: xs => if forallb (fun y => Nat.eqb (vlen y) (vlen x)) xs then Ok (x :: xs) else Raise ValueError
  end.
(** [_parallel_apply_along_axis] (utils.py:8-30), as [parallel_rows] in [Eda.v]. *)
Definition vparallel_rows (rs : list row) : VM (list (vec num) * list (vec f64)) :=
  fun s =>
    let chunks := array_split (cpu_count (h_pool h)) rs in
    let (results, tr) := vrun_chunks 0 chunks (vs_obj s) (vs_pm s) (fun _ => vs_w s) in
    let s' := mkVSt (vs_obj s) (vs_pm s) (vs_w s) (vs_tr s ++ tr) in
    match failures results with
    | e0 :: es => (Raise (nth (p_first_failure (h_pool h) (e0 :: es)) (e0 :: es) e0), s')
    | [] =>
        let oks := successes results in
        (vals <-? vconcat (map snd oks) ; Ok (List.concat (map fst oks), vals), s')%res
    end.
(** [_check_generation] (eda.py:65-68, 118-122). *)
Definition vcheck_generation : VM unit :=
  o <- vget ;
  rv <- (if c_parallelize c then vparallel_rows (a_rows (v_gen o)) else vapply_rows (a_rows (v_gen o))) ;
  vput (mkVObj (v_gen o) (snd rv) (v_elite o) (v_evel o) (v_best_cost o) (v_best_ind o)) ;;
  vlog (VGen (v_gen o) (fst rv) (snd rv)).

(** [_truncation] (eda.py:93-108): [np.append] flattens the costs. *)
Definition vtruncation : VM unit :=
  o <- vget ;
  gen <- vlift (np_concatenate (v_gen o) (v_elite o)) ;
  let evals := List.concat (map entries (v_evals o)) ++ v_evel o in
  let ordering := h_argsort h evals in
  let idx_trunc := slice_to (c_trunc_len c) ordering in
  let idx_elite := slice_to (c_elite_len c) ordering in
  elite' <- vlift (take_rows idx_elite gen) ;
  gen' <- vlift (take_rows idx_trunc gen) ;
  evel' <- vlift (gather idx_elite evals) ;
  evals' <- vlift (gather idx_trunc evals) ;
  vput (mkVObj gen' (map (fun x => (x, [])) evals') elite' evel' (v_best_cost o) (v_best_ind o)) ;;
  vlog (VSelect (combine (a_rows gen') evals') (combine (a_rows elite') evel')).

(** eda.py:176-181 *)
Definition vdraw_noise : VM noise :=
  if py_eq_int (c_w_noise c) 0 then vret NoiseZero
  else if py_eq_int (c_w_noise c) (-1) then vret NoiseStr
  else
    let w := num_to_f (c_w_noise c) in
    if (flt w (Z2f 0) || (c_trunc_len c <? 0)%Z || (c_nvars c <? 0)%Z) then vraise ValueError
    else
      d <- (fun s => let (d, w') := h_normal h w (vs_w s) in (Ok d, mkVSt (vs_obj s) (vs_pm s) w' (vs_tr s))) ;
      vret (NoiseMat (Z.to_nat (c_trunc_len c)) (Z.to_nat (c_nvars c)) d).

(** [_update_pm] (eda.py:124-128). *)
Definition vupdate_pm : VM unit :=
  o <- vget ;
  data <- (fun s => let (r, p') := h_data h (v_gen o) (v_elite o) (vs_pm s) in (r, mkVSt (vs_obj s) p' (vs_w s) (vs_tr s))) ;
  vlog (VLearn data) ;;
  (fun s => match h_learn h data (vs_pm s) (vs_w s) with (r, (p', w')) => (r, mkVSt (vs_obj s) p' w' (vs_tr s)) end).

(** [self.generation = g] (eda.py:82, 188). *)
Definition vset_gen (g : arr) : VM unit :=
  o <- vget ; vput (mkVObj g (v_evals o) (v_elite o) (v_evel o) (v_best_cost o) (v_best_ind o)).
(** [_new_generation] (eda.py:80-82). *)
Definition vnew_generation : VM unit :=
  g <- (fun s => let (r, w') := h_sample h (vs_pm s) (vs_w s) in (r, mkVSt (vs_obj s) (vs_pm s) w' (vs_tr s))) ;
  vset_gen g.

(** One pass through eda.py:187-205. *)
Definition viteration (ftol : f64) (white_noise : noise) : VM (vec f64 * bool) :=
  vtruncation ;;
  o1 <- vget ;
  gen1 <- vlift (iadd (v_gen o1) white_noise) ;
  vset_gen gen1 ;;
  vupdate_pm ;;
  vnew_generation ;;
  vcheck_generation ;;
  o <- vget ;
  best_local <- vlift (vmin (v_evals o)) ;
  i <- vlift (first_or_IndexError (np_where (some_equal best_local) (v_evals o))) ;
  ind_local <- vlift (match nth_error (a_rows (v_gen o)) i with Some r => Ok r | None => Raise IndexError end) ;
  better <- vlift (vaccept ftol best_local (v_best_cost o)) ;
  if better : bool then
    vput (mkVObj (v_gen o) (v_evals o) (v_elite o) (v_evel o) best_local (BRow ind_local)) ;;
    vret (best_local, true)
  else vret (best_local, false).

(** The conditional prints (eda.py:183-184, 211-216). *)
Definition vprint_if (b : bool) (p : vobj -> vprinted) : VM unit := if b then o <- vget ; vlog (VPrint (p o)) else vret tt.

(** The loop eda.py:186-212. *)
Fixpoint vloop (ftol : f64) (out : bool) (white_noise : noise) (n : nat) (it : Z) (history : list (vec f64)) (not_better : Z) : VM (list (vec f64)) :=
  match n with
  | O => vret history
  | Datatypes.S n' =>
      ba <- viteration ftol white_noise ;
      let history' := history ++ [fst ba] in
      if snd ba : bool then
        vprint_if out (fun o => VPrIter it (v_best_cost o)) ;;
        vloop ftol out white_noise n' (it + 1)%Z history' 0%Z
      else
        let not_better' := (not_better + 1)%Z in
        if Z.eqb not_better' (c_dead_iter c) then vret history'
        else
          vprint_if out (fun o => VPrIter it (v_best_cost o)) ;;
          vloop ftol out white_noise n' (it + 1)%Z history' not_better'
  end.

(** [_initialize_generation] (eda.py:84-88). *)
Definition vinitialize_generation : VM arr :=
  match c_init_data c with Some d => vret d | None => vworld (h_init h) end.

(** eda.py:165-174; [evaluations.item(0)] is the first entry of the first array. *)
Definition vfirst_generation : VM (vec f64) :=
  g <- vinitialize_generation ;
  vset_gen g ;;
  vcheck_generation ;;
  o <- vget ;
  r0 <- vlift (match a_rows (v_gen o) with [] => Raise IndexError | r :: _ => Ok r end) ;
  e0 <- vlift (match v_evals o with [] => Raise IndexError | e :: _ => Ok (fst e) end) ;
  vput (mkVObj (v_gen o) (v_evals o) (mkArr (a_dt (v_gen o)) (a_nc (v_gen o)) [r0]) [e0] (v_best_cost o) (v_best_ind o)) ;;
  best <- vlift (vmin (v_evals o)) ;
  o' <- vget ;
  vput (mkVObj (v_gen o') (v_evals o') (v_elite o') (v_evel o') best (v_best_ind o')) ;;
  i <- vlift (first_or_IndexError (np_where (some_equal best) (v_evals o))) ;
  vput (mkVObj (v_gen o') (v_evals o') (v_elite o') (v_evel o') best (BIdx i)) ;;
  vret best.

(** [EDA.minimize] (eda.py:148-222). *)
Definition vminimize (ftol : f64) (out : bool) : VM vresult :=
  best0 <- vfirst_generation ;
  white_noise <- vdraw_noise ;
  vprint_if out (fun o => VPrIter 0 (v_best_cost o)) ;;
  history <- vloop ftol out white_noise (Z.to_nat (c_max_iter c - 1)) 1%Z [best0] 0%Z ;
  let nfev := (Z.of_nat (List.length history) * c_size_gen c)%Z in
  vprint_if (c_disp c) (fun o => VPrFinal nfev (v_best_cost o) (v_best_ind o)) ;;
  o <- vget ;
  vret (mkVResult (v_best_ind o) (v_best_cost o) nfev history (h_settings h)).

End Vec.

Arguments vst S W : clear implicits.
Arguments VM S W A : clear implicits.
