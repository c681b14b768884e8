(** Specification vocabulary: what an observer of a run sees, stated on the ghost trace,
    without reference to how the optimiser is implemented.  *)
From Coq Require Import String List ZArith Bool Lia Sorting.Permutation Sorting.Sorted.
From Verif Require Import PyBase B64 NdArray Eda.
Import ListNotations.

(** The generations that were evaluated, in order, with the costs recorded for them. *)
Definition gens (tr : list ev) : list (arr * list f64) :=
  flat_map (fun e => match e with EvGen g _ vals => [(g, vals)] | _ => [] end) tr.

(** The values the cost function returned for each generation. *)
Definition gen_returns (tr : list ev) : list (list num) :=
  flat_map (fun e => match e with EvGen _ rets _ => [rets] | _ => [] end) tr.

(** Every call of the cost function, with what it returned. *)
Definition calls (tr : list ev) : list (row * num) :=
  flat_map (fun e => match e with EvCall r v => [(r, v)] | _ => [] end) tr.

(** The data sets the model was trained on. *)
Definition learns (tr : list ev) : list arr :=
  flat_map (fun e => match e with EvLearn d => [d] | _ => [] end) tr.

(** (training set, elite) after each selection, individuals paired with their costs. *)
Definition selections (tr : list ev) : list (list (row * f64) * list (row * f64)) :=
  flat_map (fun e => match e with EvSelect t e' => [(t, e')] | _ => [] end) tr.

Definition prints (tr : list ev) : list printed :=
  flat_map (fun e => match e with EvPrint p => [p] | _ => [] end) tr.

(** The progress lines: iteration number and best cost. *)
Definition progress (tr : list ev) : list (Z * f64) :=
  flat_map (fun p => match p with PrIter it v => [(it, v)] | PrFinal _ _ _ => [] end) (prints tr).

(** Individuals of a generation paired with their recorded costs. *)
Definition pairs (gv : arr * list f64) : list (row * f64) := combine (a_rows (fst gv)) (snd gv).

(** Everything evaluated so far. *)
Definition evaluated (tr : list ev) : list (row * f64) := flat_map pairs (gens tr).

(** [m] is a smallest element of [vals] (NaNs are not smaller than anything). *)
Definition is_min (m : f64) (vals : list f64) : Prop :=
  In m vals /\ isnan m = false /\ forall v, In v vals -> flt v m = false.

(** Cheaper-or-equal, with NaN costs last. *)
Definition cheaper (a b : row * f64) : Prop := np_le (snd a) (snd b) = true.

(** [out] consists of [k] cheapest members of [pool], cheapest first. *)
Definition cheapest (k : nat) (pool out : list (row * f64)) : Prop :=
  exists rest,
    Permutation pool (out ++ rest) /\
    StronglySorted cheaper out /\
    (forall x y, In x out -> In y rest -> cheaper x y) /\
    List.length out = Nat.min k (List.length pool).

(** A correct sort: a permutation of the positions, ascending, NaN last; not assumed stable. *)
Definition argsort_ok (f : list f64 -> list nat) : Prop :=
  forall l, Permutation (f l) (seq 0 (List.length l)) /\
            StronglySorted (fun i j => np_le (nth i l fnan) (nth j l fnan) = true) (f l).

(** A property of every event of a trace, given the events before it. *)
Definition each_event (P : list ev -> ev -> Prop) (tr : list ev) : Prop :=
  forall tr1 e tr2, tr = tr1 ++ e :: tr2 -> P tr1 e.

(** The most recent generation. *)
Definition latest (tr : list ev) : option (arr * list f64) := last (map Some (gens tr)) None.

(** The elite in force: that of the last selection, or the first individual evaluated. *)
Definition elite_before (tr : list ev) : list (row * f64) :=
  match last (map Some (selections tr)) None with
  | Some (_, e) => e
  | None => firstn 1 (evaluated tr)
  end.

(** All generations of the run have the same dtype (true of every stock algorithm run
    without init_data). *)
Definition one_dtype (d : dtype) (tr : list ev) : Prop := Forall (fun gv => a_dt (fst gv) = d) (gens tr).

(** A call of minimize on state [s] that returns [r] and leaves the trace [tr]. *)
Definition completes {S W : Type} (c : cfg) (h : hooks S W) (ftol : f64) (out : bool)
           (s : st S W) (r : result) (tr : list ev) : Prop :=
  s_tr s = [] /\ exists s', minimize c h ftol out s = (Ok r, s') /\ s_tr s' = tr.

(** [1 + ftol] as computed, when [ftol] is a finite non-negative tolerance. *)
Definition tol_ok (ftol : f64) : Prop := isfin ftol = true /\ fle (Z2f 0) ftol = true.

(** Which entries of a history improve on the best before them by the tolerance rule
    "v < best * (1 + ftol)"; the first entry is the initial best. *)
Fixpoint improvements_from (ftol best : f64) (l : list f64) : list bool :=
  match l with
  | [] => []
  | v :: l' =>
      if flt v (fmul best (fadd fone ftol)) then true :: improvements_from ftol v l'
      else false :: improvements_from ftol best l'
  end.
Definition improvements (ftol : f64) (history : list f64) : list bool :=
  match history with [] => [] | b :: l => improvements_from ftol b l end.

(** The best cost the tolerance rule keeps after a history: start with the first entry and
    replace it whenever an entry is below best * (1 + ftol). *)
Definition best_step (ftol best v : f64) : f64 :=
  if flt v (fmul best (fadd fone ftol)) then v else best.
Definition run_best (ftol : f64) (hist : list f64) : f64 :=
  match hist with [] => fnan | b :: l => fold_left (best_step ftol) l b end.

(** Cell [b] is cell [a] plus [delta]; without [delta] it is [a] itself, except that a
    negative zero may have become zero. *)
Definition cell_moved (delta : option f64) (a b : cell) : Prop :=
  match delta, a, b with
  | None, CI x, CI y => x = y
  | None, CS x, CS y => x = y
  | None, CF x, CF y => feq x y = true \/ (isnan x = true /\ isnan y = true)
  | Some d, CF x, CF y => y = fadd x d
  | Some d, CI x, CF y => y = fadd (Z2f x) d
  | _, _, _ => False
  end.

(** Matrix [rs'] is matrix [rs] moved cell by cell. *)
Definition moved (delta : nat -> nat -> option f64) (rs rs' : list row) : Prop :=
  List.length rs' = List.length rs /\
  forall i r r', nth_error rs i = Some r -> nth_error rs' i = Some r' ->
    List.length r' = List.length r /\
    forall j a b, nth_error r j = Some a -> nth_error r' j = Some b -> cell_moved (delta i j) a b.

(** A generation's first individual costs NaN. *)
Definition nan_head (gv : arr * list f64) : Prop := exists v vs, snd gv = v :: vs /\ isnan v = true.

(** Number of consecutive [false] at the end. *)
Definition trailing_false (l : list bool) : nat :=
  fold_left (fun n b => if b : bool then 0 else S n) l 0.

(** [x] inflated [k] times by [(1 + ftol)]. *)
Definition inflated (ftol : f64) (k : nat) (x : f64) : f64 :=
  Nat.iter k (fun y => fmul y (fadd fone ftol)) x.

(** All values the cost function returned are floats. *)
Definition all_float_returns (tr : list ev) : Prop :=
  Forall (fun rv => exists x, snd rv = NF x) (calls tr).

(* ------------------------------------------------------------------ *)
(** ** A concrete sort, to show that [argsort_ok] is satisfiable *)

Fixpoint insert_by (l : list f64) (i : nat) (s : list nat) : list nat :=
  match s with
  | [] => [i]
  | j :: s' => if np_le (nth i l fnan) (nth j l fnan) then i :: s else j :: insert_by l i s'
  end.

Definition argsort_ref (l : list f64) : list nat := fold_right (insert_by l) [] (seq 0 (List.length l)).

Lemma insert_by_perm l i s : Permutation (insert_by l i s) (i :: s).
Proof.
  induction s as [|j s IH]; cbn; [apply Permutation_refl|].
  destruct (np_le _ _); [apply Permutation_refl|].
  eapply Permutation_trans; [apply perm_skip, IH|apply perm_swap].
Qed.

Lemma insert_by_sorted l i s :
  StronglySorted (fun i j => np_le (nth i l fnan) (nth j l fnan) = true) s ->
  StronglySorted (fun i j => np_le (nth i l fnan) (nth j l fnan) = true) (insert_by l i s).
Proof.
  induction s as [|j s IH]; intros Hs; cbn; [repeat constructor|].
  inversion Hs as [|? ? Hs' Hj]; subst.
  destruct (np_le (nth i l fnan) (nth j l fnan)) eqn:E.
  - constructor; [exact Hs|]. constructor; [exact E|].
    eapply Forall_impl; [|exact Hj]. intros k Hk. eapply np_le_trans; eassumption.
  - constructor; [apply IH, Hs'|].
    assert (Hji : np_le (nth j l fnan) (nth i l fnan) = true).
    { destruct (np_le_total (nth i l fnan) (nth j l fnan)); [congruence|assumption]. }
    eapply Permutation_Forall; [apply Permutation_sym, insert_by_perm|].
    constructor; [exact Hji|exact Hj].
Qed.

Lemma argsort_ref_ok : argsort_ok argsort_ref.
Proof.
  intros l. unfold argsort_ref. split.
  - induction (seq 0 (List.length l)) as [|i s IH]; cbn; [constructor|].
    eapply Permutation_trans; [apply insert_by_perm|]. constructor. exact IH.
  - induction (seq 0 (List.length l)) as [|i s IH]; cbn; [constructor|].
    apply insert_by_sorted, IH.
Qed.
