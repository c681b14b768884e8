(** The optimiser's arrays as memory.

    Eda.v treats arrays as values.  In numpy they are shared: the given initial data *is* the
    first generation (eda.py:84-85), the returned best individual is a view of a row of the
    generation in which it was found (eda.py:198), the noise is added in place (eda.py:188), and
    [np.apply_along_axis] hands the cost function a view of each row (eda.py:122), whereas the
    workers of the pool receive copies (utils.py:21-25).  This file transcribes the loop a second
    time over a memory of array buffers, in which the cost function may overwrite the row that it
    is given.

    Simplifications: a buffer is never reclaimed; values written by the cost function are stored
    without conversion to the dtype of the array; the initialiser and the sampler return fresh
    arrays; the data that subclasses build for learning (h_data) is a value. *)
From Coq Require Import List ZArith Bool String Lia.
From Verif Require Import PyBase B64 NdArray Eda.
Import ListNotations.

(** Buffers are numbered in order of allocation. *)
Definition heap := list arr.
(** The array before the first generation (eda.py:56). *)
Definition no_arr : arr := mkArr DFloat 0 [].
(** The array at an address. *)
Definition deref (m : heap) (a : nat) : arr := nth a m no_arr.

(** [l[i] = x]. *)
Fixpoint set_at {A} (i : nat) (x : A) (l : list A) : list A :=
  match l, i with
  | [], _ => []
  | _ :: l', O => x :: l'
  | y :: l', Datatypes.S i' => y :: set_at i' x l'
  end.

(** [best_ind_global]: an index (eda.py:174), or a view of row [i] of buffer [a] (eda.py:198). *)
Inductive hbind := HIdx (i : nat) | HView (a i : nat).

(** What a reader of [best_ind_global] sees. *)
Definition see (m : heap) (b : hbind) : bind :=
  match b with
  | HIdx i => BIdx i
  | HView a i => BRow (nth i (a_rows (deref m a)) [])
  end.

Section Alias.
Context {S W : Type}.

(** Attributes of the optimiser; arrays are addresses.  [hs_seen] is a ghost: each buffer that
    was handed to the cost function or to the model, with what it contained at that time. *)
Record hst := mkHst {
  hs_mem : heap;
  hs_gen : nat;
  hs_evals : list f64;
  hs_elite : nat;
  hs_evel : list f64;
  hs_best_cost : f64;
  hs_best_ind : hbind;
  hs_pm : S;
  hs_w : W;
  hs_tr : list ev;
  hs_seen : list (nat * arr)
}.

(** The attributes as values. *)
Definition abs_obj (s : hst) : obj :=
  mkObj (deref (hs_mem s) (hs_gen s)) (hs_evals s) (deref (hs_mem s) (hs_elite s)) (hs_evel s)
        (hs_best_cost s) (see (hs_mem s) (hs_best_ind s)).
(** The state of Eda.v that this one stands for. *)
Definition abs (s : hst) : st S W := mkSt (abs_obj s) (hs_pm s) (hs_w s) (hs_tr s).

(** State and exceptions, as in Eda.v. *)
Definition HM (A : Type) := hst -> res A * hst.
(** A statement that changes nothing. *)
Definition hret {A} (a : A) : HM A := fun s => (Ok a, s).
(** Two statements in sequence. *)
Definition hbind_ {A B} (m : HM A) (f : A -> HM B) : HM B :=
  fun s => match m s with
           | (Ok a, s') => f a s'
           | (Raise e, s') => (Raise e, s')
           end.
(** An expression that reads no attribute. *)
Definition hlift {A} (r : res A) : HM A := fun s => (r, s).

(** Code that assigns no array and writes into none: random numbers, model, output. *)
Definition pure_step {A} (m : M S W A) : HM A :=
  fun s => let (r, t) := m (abs s) in
           (r, mkHst (hs_mem s) (hs_gen s) (hs_evals s) (hs_elite s) (hs_evel s)
                     (hs_best_cost s) (hs_best_ind s) (s_pm t) (s_w t) (s_tr t) (hs_seen s)).

Local Notation "x <- a ; b" := (hbind_ a (fun x => b)) (at level 61, a at next level, right associativity).
Local Notation "a ;; b" := (hbind_ a (fun _ => b)) (at level 61, right associativity).

(** A new buffer; its address. *)
Definition alloc (x : arr) : HM nat :=
  fun s => (Ok (List.length (hs_mem s)),
            mkHst (hs_mem s ++ [x]) (hs_gen s) (hs_evals s) (hs_elite s) (hs_evel s)
                  (hs_best_cost s) (hs_best_ind s) (hs_pm s) (hs_w s) (hs_tr s) (hs_seen s)).
(** Overwrite a buffer. *)
Definition write (a : nat) (x : arr) : HM unit :=
  fun s => (Ok tt,
            mkHst (set_at a x (hs_mem s)) (hs_gen s) (hs_evals s) (hs_elite s) (hs_evel s)
                  (hs_best_cost s) (hs_best_ind s) (hs_pm s) (hs_w s) (hs_tr s) (hs_seen s)).
(** Reading attributes. *)
Definition gets {A} (f : hst -> A) : HM A := fun s => (Ok (f s), s).
(** [self.generation = ...] (eda.py:82, 106, 166). *)
Definition assign_gen (a : nat) : HM unit :=
  fun s => (Ok tt, mkHst (hs_mem s) a (hs_evals s) (hs_elite s) (hs_evel s)
                  (hs_best_cost s) (hs_best_ind s) (hs_pm s) (hs_w s) (hs_tr s) (hs_seen s)).
(** [self.evaluations = ...] (eda.py:68, 108, 122). *)
Definition assign_evals (l : list f64) : HM unit :=
  fun s => (Ok tt, mkHst (hs_mem s) (hs_gen s) l (hs_elite s) (hs_evel s)
                  (hs_best_cost s) (hs_best_ind s) (hs_pm s) (hs_w s) (hs_tr s) (hs_seen s)).
(** [self.elite_temp = ...], [self.evaluations_elite = ...] (eda.py:105, 107). *)
Definition assign_elite (a : nat) (l : list f64) : HM unit :=
  fun s => (Ok tt, mkHst (hs_mem s) (hs_gen s) (hs_evals s) a l
                  (hs_best_cost s) (hs_best_ind s) (hs_pm s) (hs_w s) (hs_tr s) (hs_seen s)).
(** [self.best_mae_global = ...], [self.best_ind_global = ...] (eda.py:173-174, 202-203). *)
Definition assign_best (x : f64) (b : hbind) : HM unit :=
  fun s => (Ok tt, mkHst (hs_mem s) (hs_gen s) (hs_evals s) (hs_elite s) (hs_evel s)
                  x b (hs_pm s) (hs_w s) (hs_tr s) (hs_seen s)).
(** Extending the ghost trace.  Not code. *)
Definition hlog (e : ev) : HM unit :=
  fun s => (Ok tt, mkHst (hs_mem s) (hs_gen s) (hs_evals s) (hs_elite s) (hs_evel s)
                  (hs_best_cost s) (hs_best_ind s) (hs_pm s) (hs_w s) (hs_tr s ++ [e]) (hs_seen s)).
(** The current generation is handed out. *)
Definition hand_out : HM unit :=
  fun s => (Ok tt, mkHst (hs_mem s) (hs_gen s) (hs_evals s) (hs_elite s) (hs_evel s)
                  (hs_best_cost s) (hs_best_ind s) (hs_pm s) (hs_w s) (hs_tr s)
                  (hs_seen s ++ [(hs_gen s, deref (hs_mem s) (hs_gen s))])).

Variable c : cfg.
Variable h : hooks S W.
(** The cost function, with what it leaves in the row it was given. *)
Variable hcost : row -> W -> res num * row * W.
(** Where the caller's initial data is, if there is any. *)
Variable data : option nat.

(* ---------------- evaluation ---------------- *)

(** Write one row of a buffer. *)
Definition with_row (i : nat) (r : row) (x : arr) : arr :=
  mkArr (a_dt x) (a_nc x) (set_at i r (a_rows x)).

(** One call of the cost function on a view of row [i] of the current generation. *)
Definition hcall1 (i : nat) : HM num :=
  fun s =>
    let x := deref (hs_mem s) (hs_gen s) in
    let r := nth i (a_rows x) [] in
    match hcost r (hs_w s) with
    | (v, r', w') =>
        (v, mkHst (set_at (hs_gen s) (with_row i r' x) (hs_mem s)) (hs_gen s) (hs_evals s) (hs_elite s)
                  (hs_evel s) (hs_best_cost s) (hs_best_ind s) (hs_pm s) w'
                  (match v with Ok v => hs_tr s ++ [EvCall r v] | Raise _ => hs_tr s end) (hs_seen s))
    end.

(** One call per row, in order (eda.py:121-122). *)
Fixpoint hcall_rows (i n : nat) : HM (list num) :=
  match n with
  | O => hret []
  | Datatypes.S n' => v <- hcall1 i ; vs <- hcall_rows (Datatypes.S i) n' ; hret (v :: vs)
  end.

(** [np.apply_along_axis(cost, 1, generation)] (eda.py:121-122). *)
Definition happly_rows : HM (list num * list f64) :=
  n <- gets (fun s => a_len (deref (hs_mem s) (hs_gen s))) ;
  match n with
  | O => hlift (Raise ValueError)
  | _ => vs <- hcall_rows 0 n ; hret (vs, store_all vs)
  end.

(** [_check_generation] (eda.py:65-68, 118-122).  The workers of the pool get copies of the rows,
    so what the cost function leaves in them is lost. *)
Definition hcheck_generation : HM unit :=
  hand_out ;;
  g <- gets (fun s => deref (hs_mem s) (hs_gen s)) ;
  rv <- (if c_parallelize c then pure_step (parallel_rows h (a_rows g)) else happly_rows) ;
  assign_evals (snd rv) ;;
  hlog (EvGen g (fst rv) (snd rv)).

(* ---------------- selection, learning, sampling ---------------- *)

(** [_truncation] (eda.py:93-108): [np.concatenate] and indexing by a list of positions copy. *)
Definition htruncation : HM unit :=
  s <- gets (fun s => s) ;
  gen <- hlift (np_concatenate (deref (hs_mem s) (hs_gen s)) (deref (hs_mem s) (hs_elite s))) ; (* line 98 *)
  let evals := hs_evals s ++ hs_evel s in
  let ordering := h_argsort h evals in
  let idx_trunc := slice_to (c_trunc_len c) ordering in
  let idx_elite := slice_to (c_elite_len c) ordering in
  elite' <- hlift (take_rows idx_elite gen) ;                                (* line 105 *)
  gen' <- hlift (take_rows idx_trunc gen) ;                                  (* line 106 *)
  evel' <- hlift (gather idx_elite evals) ;
  evals' <- hlift (gather idx_trunc evals) ;
  alloc gen ;;
  ae <- alloc elite' ; assign_elite ae evel' ;;
  ag <- alloc gen' ; assign_gen ag ;; assign_evals evals' ;;
  hlog (EvSelect (combine (a_rows gen') evals') (combine (a_rows elite') evel')).

(** [self.generation += white_noise] (eda.py:188) writes into the buffer of the generation. *)
Definition hadd_noise (white_noise : noise) : HM unit :=
  a <- gets hs_gen ;
  x <- gets (fun s => deref (hs_mem s) (hs_gen s)) ;
  x' <- hlift (iadd x white_noise) ;
  write a x'.

(** [_new_generation] (eda.py:80-82) *)
Definition hnew_generation : HM unit :=
  g <- pure_step (fun t => let (r, w') := h_sample h (s_pm t) (s_w t) in
                           (r, mkSt (s_obj t) (s_pm t) w' (s_tr t))) ;
  a <- alloc g ; assign_gen a.

(* ---------------- minimize ---------------- *)

(** One pass through eda.py:187-205. *)
Definition hiteration (ftol : f64) (white_noise : noise) : HM (f64 * bool) :=
  htruncation ;;
  hadd_noise white_noise ;;
  hand_out ;; pure_step (update_pm h) ;;
  hnew_generation ;;
  hcheck_generation ;;
  s <- gets (fun s => s) ;
  best_local <- hlift (py_min (hs_evals s)) ;
  i <- hlift (first_or_IndexError (np_where (fun x => feq x best_local) (hs_evals s))) ;
  _ <- hlift (match nth_error (a_rows (deref (hs_mem s) (hs_gen s))) i with
              | Some r => Ok r
              | None => Raise IndexError
              end) ;
  if accept ftol best_local (hs_best_cost s) then
    assign_best best_local (HView (hs_gen s) i) ;; hret (best_local, true)
  else hret (best_local, false).

(** The loop (eda.py:186-212). *)
Fixpoint hloop (ftol : f64) (out : bool) (white_noise : noise)
               (n : nat) (it : Z) (history : list f64) (not_better : Z) : HM (list f64) :=
  match n with
  | O => hret history
  | Datatypes.S n' =>
      ba <- hiteration ftol white_noise ;
      let history' := history ++ [fst ba] in
      if snd ba : bool then
        pure_step (print_if out (fun o => PrIter it (o_best_cost o))) ;;
        hloop ftol out white_noise n' (it + 1)%Z history' 0%Z
      else
        let not_better' := (not_better + 1)%Z in
        if Z.eqb not_better' (c_dead_iter c) then hret history'
        else
          pure_step (print_if out (fun o => PrIter it (o_best_cost o))) ;;
          hloop ftol out white_noise n' (it + 1)%Z history' not_better'
  end.

(** eda.py:84-88: the initial data itself, or a fresh sample. *)
Definition hinitialize_generation : HM unit :=
  match data with
  | Some a => assign_gen a
  | None => g <- pure_step (with_world (h_init h)) ; a <- alloc g ; assign_gen a
  end.

(** eda.py:165-174 *)
Definition hfirst_generation : HM f64 :=
  hinitialize_generation ;;
  hcheck_generation ;;
  s <- gets (fun s => s) ;
  let g := deref (hs_mem s) (hs_gen s) in
  r0 <- hlift (match a_rows g with [] => Raise IndexError | r :: _ => Ok r end) ;
  e0 <- hlift (match hs_evals s with [] => Raise IndexError | e :: _ => Ok e end) ;
  a <- alloc (mkArr (a_dt g) (a_nc g) [r0]) ; assign_elite a [e0] ;;
  best <- hlift (py_min (hs_evals s)) ;
  assign_best best (hs_best_ind s) ;;
  i <- hlift (first_or_IndexError (np_where (fun x => feq x best) (hs_evals s))) ;
  assign_best best (HIdx i) ;;
  hret best.

(** What [minimize] returns (eda.py:218-222): [best_ind] is a reference. *)
Record hresult := mkHresult {
  hr_best_ind : hbind;
  hr_best_cost : f64;
  hr_nfev : Z;
  hr_history : list f64;
  hr_settings : dict
}.

(** [minimize] (eda.py:148-222). *)
Definition hminimize (ftol : f64) (out : bool) : HM hresult :=
  best0 <- hfirst_generation ;
  white_noise <- pure_step (draw_noise c h) ;
  pure_step (print_if out (fun o => PrIter 0 (o_best_cost o))) ;;
  history <- hloop ftol out white_noise (Z.to_nat (c_max_iter c - 1)) 1%Z [best0] 0%Z ;
  let nfev := (Z.of_nat (List.length history) * c_size_gen c)%Z in
  pure_step (print_if (c_disp c) (fun o => PrFinal nfev (o_best_cost o) (o_best_ind o))) ;;
  s <- gets (fun s => s) ;
  hret (mkHresult (hs_best_ind s) (hs_best_cost s) nfev history (h_settings h)).

(** The result as seen in memory [m]. *)
Definition see_result (m : heap) (r : hresult) : result :=
  mkResult (see m (hr_best_ind r)) (hr_best_cost r) (hr_nfev r) (hr_history r) (hr_settings r).

End Alias.

Arguments hst S W : clear implicits.
