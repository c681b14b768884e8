(** Model of class [EDA] (EDAspy/optimization/eda.py).

    What subclasses override or plug in - the initialiser, the probabilistic model, the
    archive - is a record of hooks; so are numpy's sort, numpy's random normals and the
    user's cost function.  Everything else is transcribed.  *)
From Coq Require Import List ZArith Bool String Lia.
From Verif Require Import PyBase B64 NdArray.
Import ListNotations.

(** Values stored in a settings dictionary. *)
Inductive sval :=
| SInt (z : Z)
| SNum (p : pynum)
| SBool (b : bool)
| SBounds (lo hi : pynum).

(** A settings dictionary (eda.py:130-146). *)
Definition dict := list (string * sval).

(** [settings[k]] (eda_custom.py:141-150). *)
Fixpoint dict_get (k : string) (d : dict) : option sval :=
  match d with
  | [] => None
  | (k', v) :: d' => if String.eqb k k' then Some v else dict_get k d'
  end.

(** Attributes fixed by [EDA.__init__] (eda.py:37-78). *)
Record cfg := mkCfg {
  c_size_gen : Z;
  c_max_iter : Z;
  c_dead_iter : Z;
  c_nvars : Z;
  c_alpha : pynum;
  c_elite_factor : pynum;
  c_disp : bool;
  c_parallelize : bool;
  c_init_data : option arr;
  c_w_noise : pynum;          (* normalised: eda.py:48-51 *)
  c_trunc_len : Z;
  c_elite_len : Z
}.

(** [EDA.__init__] (eda.py:24-78).  [w_noise] may be None. *)
Definition eda_init (size_gen max_iter dead_iter nvars : Z) (alpha elite_factor : pynum)
           (disp parallelize : bool) (init_data : option arr) (w_noise : option pynum) : res cfg :=
  (truncation_length <-? int_times size_gen alpha ;                     (* line 42 *)
   elite_length <-? int_times size_gen elite_factor ;                   (* line 44 *)
   let w := match w_noise with                                          (* lines 48-51 *)
            | Some p => if py_eq_int p 0 then PyI 0 else p
            | None => PyI 0
            end in
   if (dead_iter <=? max_iter)%Z then                                   (* line 53 *)
     match init_data with                                               (* lines 71-78 *)
     | Some d =>
         if Z.eqb (Z.of_nat (a_nc d)) nvars then
           Ok (mkCfg size_gen max_iter dead_iter nvars alpha elite_factor disp parallelize
                     init_data w truncation_length elite_length)
         else Raise AssertionError
     | None =>
         Ok (mkCfg size_gen max_iter dead_iter nvars alpha elite_factor disp parallelize
                   init_data w truncation_length elite_length)
     end
   else Raise AssertionError)%res.

(** [EDA.export_settings] (eda.py:130-146). *)
Definition export_settings (c : cfg) : dict :=
  [("size_gen", SInt (c_size_gen c)); ("max_iter", SInt (c_max_iter c));
   ("dead_iter", SInt (c_dead_iter c)); ("n_variables", SInt (c_nvars c));
   ("alpha", SNum (c_alpha c)); ("elite_factor", SNum (c_elite_factor c));
   ("disp", SBool (c_disp c)); ("parallelize", SBool (c_parallelize c))]%string.

(** [best_ind_global] starts as an index (eda.py:174) and may become a row (eda.py:198). *)
Inductive bind := BIdx (i : nat) | BRow (r : row).

(** Attributes that [minimize] assigns (eda.py:56-63). *)
Record obj := mkObj {
  o_gen : arr;             (* None before the first minimize; never read before being set *)
  o_evals : list f64;
  o_elite : arr;
  o_evel : list f64;
  o_best_cost : f64;
  o_best_ind : bind
}.

(** What [minimize] prints. *)
Inductive printed :=
| PrIter (it : Z) (best : f64)                       (* eda.py:184, 212 *)
| PrFinal (nfev : Z) (best : f64) (ind : bind).      (* eda.py:215-216 *)

(** Ghost trace: what an observer of the cost function, of the model and of stdout sees. *)
Inductive ev :=
| EvCall (r : row) (v : num)                                   (* the cost function returned *)
| EvGen (g : arr) (rets : list num) (vals : list f64)          (* a generation was evaluated *)
| EvSelect (train : list (row * f64)) (elite : list (row * f64)) (* selection, before noise *)
| EvLearn (data : arr)                                         (* the model is trained on data *)
| EvPrint (p : printed).

(** EdaResult (eda_result.py:7-42); the cpu time is not modelled. *)
Record result := mkResult {
  r_best_ind : bind;
  r_best_cost : f64;
  r_nfev : Z;
  r_history : list f64;
  r_settings : dict
}.

Section EDA.
Context {S W : Type}.

(** State of the optimiser: attributes, probabilistic model (with the archive when there is
    one), the outside world (random generator, user's globals) and the ghost trace. *)
Record st := mkSt { s_obj : obj; s_pm : S; s_w : W; s_tr : list ev }.

(** Parallel evaluation: number of cores beyond the first ([cpu_count() - 1]), the worker
    each chunk is sent to, and which of several failures is reported first. *)
Record pool := mkPool { p_extra : nat; p_worker : nat -> nat; p_first_failure : list exn -> nat }.
(** [multiprocessing.cpu_count()] (utils.py:22). *)
Definition cpu_count (p : pool) : nat := Datatypes.S (p_extra p).

(** What the loop calls: the overridable methods (eda.py:80-128), the user's function (eda.py:148), numpy. *)
Record hooks := mkHooks {
  h_argsort : list f64 -> list nat;                         (* ndarray.argsort() *)
  h_cost : row -> W -> res num * W;                         (* the user's cost function *)
  h_pool : pool;
  h_normal : f64 -> W -> (nat -> nat -> f64) * W;           (* np.random.normal(0, w, size=...) *)
  h_init : W -> res arr * W;                                (* self.init.sample(size_gen) *)
  h_data : arr -> arr -> S -> res arr * S;                  (* what _update_pm trains on, from (generation, elite) *)
  h_learn : arr -> S -> W -> res unit * (S * W);            (* self.pm.learn *)
  h_sample : S -> W -> res arr * W;                         (* self.pm.sample(size_gen) *)
  h_settings : dict                                         (* self.export_settings() *)
}.

(** State and exception monad; the state survives an exception. *)
Definition M (A : Type) := st -> res A * st.
(** A statement that changes nothing. *)
Definition mret {A} (a : A) : M A := fun s => (Ok a, s).
(** [raise]. *)
Definition mraise {A} (e : exn) : M A := fun s => (Raise e, s).
(** Two statements in sequence; an exception skips the second. *)
Definition mbind {A B} (m : M A) (f : A -> M B) : M B :=
  fun s => match m s with
           | (Ok a, s') => f a s'
           | (Raise e, s') => (Raise e, s')
           end.
(** An expression that reads no attribute. *)
Definition mlift {A} (r : res A) : M A := fun s => (r, s).
(** Reading the attributes of [self] (eda.py:56-63). *)
Definition get_obj : M obj := fun s => (Ok (s_obj s), s).
(** Assigning attributes of [self] (e.g. eda.py:105-108, 202-203). *)
Definition put_obj (o : obj) : M unit := fun s => (Ok tt, mkSt o (s_pm s) (s_w s) (s_tr s)).
(** Extending the ghost trace.  Not code. *)
Definition log (e : ev) : M unit := fun s => (Ok tt, mkSt (s_obj s) (s_pm s) (s_w s) (s_tr s ++ [e])).
(** A call that uses the random generator or user code (e.g. eda.py:88, 122). *)
Definition with_world {A} (f : W -> res A * W) : M A :=
  fun s => let (r, w') := f (s_w s) in (r, mkSt (s_obj s) (s_pm s) w' (s_tr s)).

Local Notation "x <- a ; b" := (mbind a (fun x => b)) (at level 61, a at next level, right associativity).
Local Notation "a ;; b" := (mbind a (fun _ => b)) (at level 61, right associativity).

Variable c : cfg.
Variable h : hooks.

(* ---------------- evaluation ---------------- *)

(** One call of the cost function. *)
Definition call1 (r : row) : M num :=
  v <- with_world (h_cost h r) ;
  log (EvCall r v) ;;
  mret v.

(** One call per row, in order (eda.py:121-122). *)
Fixpoint call_rows (rs : list row) : M (list num) :=
  match rs with
  | [] => mret []
  | r :: rs' => v <- call1 r ; vs <- call_rows rs' ; mret (v :: vs)
  end.

(** [np.apply_along_axis(cost, 1, generation)]: refuses an empty generation; one call per
    row, in order (eda.py:121-122). *)
Definition apply_rows (rs : list row) : M (list num * list f64) :=
  match rs with
  | [] => mraise ValueError
  | _ => vs <- call_rows rs ; mret (vs, store_all vs)
  end.

(** A worker of the multiprocessing pool evaluates one chunk in its own copy of the world. *)
Definition run_chunk (o : obj) (p : S) (w : W) (chunk : list row)
  : res (list num * list f64) * W * list ev :=
  match apply_rows chunk (mkSt o p w []) with
  | (r, s') => (r, s_w s', s_tr s')
  end.

(** [pool.map(unpacking_apply_along_axis, chunks)] (utils.py:24-28). *)
Fixpoint run_chunks (i : nat) (chunks : list (list row)) (o : obj) (p : S) (ws : nat -> W)
  : list (res (list num * list f64)) * list ev :=
  match chunks with
  | [] => ([], [])
  | ch :: chunks' =>
      let k := p_worker (h_pool h) i in
      match run_chunk o p (ws k) ch with
      | (r, w', tr) =>
          let (rs, trs) := run_chunks (Datatypes.S i) chunks' o p
                             (fun k' => if Nat.eqb k' k then w' else ws k') in
          (r :: rs, tr ++ trs)
      end
  end.

(** The exceptions among the results of the workers. *)
Fixpoint failures {A} (rs : list (res A)) : list exn :=
  match rs with
  | [] => []
  | Ok _ :: rs' => failures rs'
  | Raise e :: rs' => e :: failures rs'
  end.

(** The values among the results of the workers (utils.py:25, 30). *)
Fixpoint successes {A} (rs : list (res A)) : list A :=
  match rs with
  | [] => []
  | Ok a :: rs' => a :: successes rs'
  | Raise _ :: rs' => successes rs'
  end.

(** [_parallel_apply_along_axis] (utils.py:8-44): split into [cpu_count()] chunks, one
    forked pool per call; each chunk is evaluated by [np.apply_along_axis]; the parent's
    world is not affected by the workers.  Chunks handled by the same worker see the world
    left by that worker's earlier chunks. *)
Definition parallel_rows (rs : list row) : M (list num * list f64) :=
  fun s =>
    let chunks := array_split (cpu_count (h_pool h)) rs in
    let (results, tr) := run_chunks 0 chunks (s_obj s) (s_pm s) (fun _ => s_w s) in
    let s' := mkSt (s_obj s) (s_pm s) (s_w s) (s_tr s ++ tr) in
    match failures results with
    | e0 :: es => (Raise (nth (p_first_failure (h_pool h) (e0 :: es)) (e0 :: es) e0), s')
    | [] =>
        let oks := successes results in
        (Ok (List.concat (map fst oks), List.concat (map snd oks)), s')
    end.

(** [_check_generation] (eda.py:65-68, 118-122). *)
Definition check_generation : M unit :=
  o <- get_obj ;
  rv <- (if c_parallelize c then parallel_rows (a_rows (o_gen o)) else apply_rows (a_rows (o_gen o))) ;
  put_obj (mkObj (o_gen o) (snd rv) (o_elite o) (o_evel o) (o_best_cost o) (o_best_ind o)) ;;
  log (EvGen (o_gen o) (fst rv) (snd rv)).

(* ---------------- selection ---------------- *)

(** [_truncation] (eda.py:93-108). *)
Definition truncation : M unit :=
  o <- get_obj ;
  gen <- mlift (np_concatenate (o_gen o) (o_elite o)) ;                 (* line 98 *)
  let evals := o_evals o ++ o_evel o in                                 (* line 99 *)
  let ordering := h_argsort h evals in                                  (* line 102 *)
  let idx_trunc := slice_to (c_trunc_len c) ordering in                 (* line 103 *)
  let idx_elite := slice_to (c_elite_len c) ordering in                 (* line 104 *)
  elite' <- mlift (take_rows idx_elite gen) ;                           (* line 105 *)
  gen' <- mlift (take_rows idx_trunc gen) ;                             (* line 106 *)
  evel' <- mlift (gather idx_elite evals) ;                             (* line 107 *)
  evals' <- mlift (gather idx_trunc evals) ;                            (* line 108 *)
  put_obj (mkObj gen' evals' elite' evel' (o_best_cost o) (o_best_ind o)) ;;
  log (EvSelect (combine (a_rows gen') evals') (combine (a_rows elite') evel')).

(* ---------------- noise ---------------- *)

(** eda.py:176-181 *)
Definition draw_noise : M noise :=
  if py_eq_int (c_w_noise c) 0 then mret NoiseZero
  else if py_eq_int (c_w_noise c) (-1) then mret NoiseStr
  else
    let w := num_to_f (c_w_noise c) in
    (* np.random.normal refuses a negative scale (NaN passes) and negative dimensions *)
    if (flt w (Z2f 0) || (c_trunc_len c <? 0)%Z || (c_nvars c <? 0)%Z) then mraise ValueError
    else
      d <- (fun s => let (d, w') := h_normal h w (s_w s) in
                     (Ok d, mkSt (s_obj s) (s_pm s) w' (s_tr s))) ;
      mret (NoiseMat (Z.to_nat (c_trunc_len c)) (Z.to_nat (c_nvars c)) d).

(* ---------------- learning and sampling ---------------- *)

(** [_update_pm] (eda.py:124-128; overridden in keda.py:105-111, speda.py:110-116, boa.py:103-107). *)
Definition update_pm : M unit :=
  o <- get_obj ;
  data <- (fun s => let (r, p') := h_data h (o_gen o) (o_elite o) (s_pm s) in
                    (r, mkSt (s_obj s) p' (s_w s) (s_tr s))) ;
  log (EvLearn data) ;;
  (fun s => match h_learn h data (s_pm s) (s_w s) with
            | (r, (p', w')) => (r, mkSt (s_obj s) p' w' (s_tr s))
            end).

(** [self.generation = g] (eda.py:82, 188). *)
Definition set_gen (g : arr) : M unit :=
  o <- get_obj ;
  put_obj (mkObj g (o_evals o) (o_elite o) (o_evel o) (o_best_cost o) (o_best_ind o)).

(** [_new_generation] (eda.py:80-82) *)
Definition new_generation : M unit :=
  g <- (fun s => let (r, w') := h_sample h (s_pm s) (s_w s) in
                 (r, mkSt (s_obj s) (s_pm s) w' (s_tr s))) ;
  set_gen g.

(* ---------------- minimize ---------------- *)

(** The acceptance test (eda.py:201). *)
Definition accept (ftol local global : f64) : bool := flt local (fmul global (fadd fone ftol)).

(** One pass through eda.py:187-205; returns the best cost of the new generation and
    whether it was accepted. *)
Definition iteration (ftol : f64) (white_noise : noise) : M (f64 * bool) :=
  truncation ;;                                                         (* line 187 *)
  o1 <- get_obj ;
  gen1 <- mlift (iadd (o_gen o1) white_noise) ;                         (* line 188 *)
  set_gen gen1 ;;
  update_pm ;;                                                          (* line 189 *)
  new_generation ;;                                                     (* line 191 *)
  check_generation ;;                                                   (* line 192 *)
  o <- get_obj ;
  best_local <- mlift (py_min (o_evals o)) ;                            (* line 194 *)
  i <- mlift (first_or_IndexError (np_where (fun x => feq x best_local) (o_evals o))) ; (* 197 *)
  ind_local <- mlift (match nth_error (a_rows (o_gen o)) i with         (* line 198 *)
                      | Some r => Ok r
                      | None => Raise IndexError
                      end) ;
  if accept ftol best_local (o_best_cost o) then                        (* lines 201-203 *)
    put_obj (mkObj (o_gen o) (o_evals o) (o_elite o) (o_evel o) best_local (BRow ind_local)) ;;
    mret (best_local, true)
  else mret (best_local, false).

(** The conditional prints (eda.py:183-184, 211-212, 214-216). *)
Definition print_if (b : bool) (p : obj -> printed) : M unit :=
  if b then o <- get_obj ; log (EvPrint (p o)) else mret tt.

(** The loop eda.py:186-212; [n] iterations remain. *)
Fixpoint loop (ftol : f64) (out : bool) (white_noise : noise)
              (n : nat) (it : Z) (history : list f64) (not_better : Z) : M (list f64) :=
  match n with
  | O => mret history
  | Datatypes.S n' =>
      ba <- iteration ftol white_noise ;
      let history' := history ++ [fst ba] in
      if snd ba : bool then
        print_if out (fun o => PrIter it (o_best_cost o)) ;;
        loop ftol out white_noise n' (it + 1)%Z history' 0%Z
      else
        let not_better' := (not_better + 1)%Z in
        if Z.eqb not_better' (c_dead_iter c) then mret history'          (* lines 208-209 *)
        else
          print_if out (fun o => PrIter it (o_best_cost o)) ;;
          loop ftol out white_noise n' (it + 1)%Z history' not_better'
  end.

(** [_initialize_generation] (eda.py:84-88) *)
Definition initialize_generation : M arr :=
  match c_init_data c with
  | Some d => mret d
  | None => with_world (h_init h)
  end.

(** eda.py:165-174; returns the first history entry. *)
Definition first_generation : M f64 :=
  g <- initialize_generation ;
  set_gen g ;;
  check_generation ;;
  o <- get_obj ;
  r0 <- mlift (match a_rows (o_gen o) with [] => Raise IndexError | r :: _ => Ok r end) ; (* 169 *)
  e0 <- mlift (match o_evals o with [] => Raise IndexError | e :: _ => Ok e end) ;        (* 170 *)
  put_obj (mkObj (o_gen o) (o_evals o) (mkArr (a_dt (o_gen o)) (a_nc (o_gen o)) [r0]) [e0]
                 (o_best_cost o) (o_best_ind o)) ;;
  best <- mlift (py_min (o_evals o)) ;                                   (* line 172 *)
  o' <- get_obj ;
  put_obj (mkObj (o_gen o') (o_evals o') (o_elite o') (o_evel o') best (o_best_ind o')) ;;
  i <- mlift (first_or_IndexError (np_where (fun x => feq x best) (o_evals o))) ; (* line 174 *)
  put_obj (mkObj (o_gen o') (o_evals o') (o_elite o') (o_evel o') best (BIdx i)) ;;
  mret best.

(** [EDA.minimize] (eda.py:148-222) *)
Definition minimize (ftol : f64) (out : bool) : M result :=
  best0 <- first_generation ;
  white_noise <- draw_noise ;
  print_if out (fun o => PrIter 0 (o_best_cost o)) ;;
  history <- loop ftol out white_noise (Z.to_nat (c_max_iter c - 1)) 1%Z [best0] 0%Z ;
  let nfev := (Z.of_nat (List.length history) * c_size_gen c)%Z in
  print_if (c_disp c) (fun o => PrFinal nfev (o_best_cost o) (o_best_ind o)) ;;
  o <- get_obj ;
  mret (mkResult (o_best_ind o) (o_best_cost o) nfev history (h_settings h)).

End EDA.

Arguments st S W : clear implicits.
Arguments hooks S W : clear implicits.
Arguments M S W A : clear implicits.
