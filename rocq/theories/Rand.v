(** The fragment of [numpy.random] (legacy global generator) the library uses.

    The generator is an oracle: each call asks it for raw draws and gets a new state.
    Everything numpy computes from the raw draws (affine maps, the inverse-cdf lookup of
    [choice], argument validation) is transcribed.  *)
From Coq Require Import String List ZArith Bool Lia.
From Verif Require Import PyBase B64 NdArray.
Import ListNotations.
Open Scope nat_scope.

(** Raw draws.  A call for a [r] by [c] block returns the block as a function of row and
    column; only the entries inside the block are used. *)
Record rng (W : Type) := mkRng {
  g_unif : nat -> nat -> W -> (nat -> nat -> f64) * W;     (* random_sample((r, c)), in [0, 1) *)
  g_gauss : nat -> nat -> W -> (nat -> nat -> f64) * W;    (* standard normals *)
  g_pick : nat -> nat -> W -> (nat -> nat) * W;            (* randint(0, n, size), n > 0 *)
  g_mvn : list f64 -> list (list f64) -> nat -> W -> res (nat -> nat -> f64) * W
                                                           (* multivariate_normal after its shape checks *)
}.
Arguments mkRng {W}.
Arguments g_unif {W}.
Arguments g_gauss {W}.
Arguments g_pick {W}.
Arguments g_mvn {W}.

(** [random_sample] returns doubles in the half-open unit interval. *)
Definition unif_ok {W} (g : rng W) : Prop :=
  forall r c w i j, let u := fst (g_unif g r c w) i j in fle (Z2f 0) u = true /\ flt u fone = true.

(** Standard normals are finite. *)
Definition gauss_ok {W} (g : rng W) : Prop :=
  forall r c w i j, isfin (fst (g_gauss g r c w) i j) = true.

(** [randint] stays in range. *)
Definition pick_ok {W} (g : rng W) : Prop := forall n k w i, 0 < n -> fst (g_pick g n k w) i < n.

(** The list [f 0, ..., f (n-1)]: an array built element by element. *)
Definition tabulate {A} (n : nat) (f : nat -> A) : list A := map f (seq 0 n).

(** A float matrix as an array. *)
Definition float_arr (nr nc : nat) (f : nat -> nat -> f64) : arr :=
  mkArr DFloat nc (tabulate nr (fun i => tabulate nc (fun j => CF (f i j)))).

(** Result extent of broadcasting two extents. *)
Definition bres (n m : nat) : option nat :=
  if Nat.eqb n m then Some n else if Nat.eqb n 1 then Some m else if Nat.eqb m 1 then Some n else None.

(** The sign bit is set and the value is not NaN. *)
Definition neg_signed (x : f64) : bool := negb (isnan x) && BinarySingleNaN.Bsign x.

(** [np.random.normal(loc, scale, (size, n))] with vectors [loc], [scale]: refuses a
    negative scale, negative dimensions, and vectors that do not broadcast to [n]
    (numpy/random/mtrand.pyx, legacy_normal: loc + scale * gauss). *)
Definition np_normal {W} (g : rng W) (loc scale : list f64) (size : Z) (n : nat) (w : W) : res arr * W :=
  if existsb neg_signed scale then (Raise ValueError, w)
  else if (size <? 0)%Z then (Raise ValueError, w)
  else if negb (broadcasts (List.length loc) n && broadcasts (List.length scale) n) then (Raise ValueError, w)
  else
    let (z, w') := g_gauss g (Z.to_nat size) n w in
    (Ok (float_arr (Z.to_nat size) n (fun i j =>
       fadd (nth (bidx (List.length loc) j) loc fnan)
            (fmul (nth (bidx (List.length scale) j) scale fnan) (z i j)))), w').

(** Bounds of [UniformGenInit]: None, a number, or a sequence (list or array). *)
Inductive bound := BNone | BNum (p : pynum) | BList (is_list : bool) (l : list f64).

(** Extent of a bound along the variables (uniform_geninit.py:50). *)
Definition bound_len (b : bound) : nat := match b with BList _ l => List.length l | _ => 1 end.
(** The bound of variable [j] (uniform_geninit.py:50). *)
Definition bound_at (b : bound) (j : nat) : f64 :=
  match b with
  | BNone => fnan
  | BNum p => num_to_f p
  | BList _ l => nth (bidx (List.length l) j) l fnan
  end.

(** [np.random.uniform(low, high, (size, n))]: low + (high - low) * random.  Two scalars are
    converted with float(), so None is a TypeError; in arrays None becomes NaN, and a
    range that is not finite is an OverflowError. *)
Definition np_uniform {W} (g : rng W) (lo hi : bound) (size : Z) (n : nat) (w : W) : res arr * W :=
  match lo, hi with
  | BNone, (BNone | BNum _) | BNum _, BNone => (Raise TypeError, w)
  | _, _ =>
      if (match lo, hi with BList _ _, _ | _, BList _ _ =>
            match bres (bound_len lo) (bound_len hi) with None => true | Some _ => false end
          | _, _ => false end) then (Raise ValueError, w)
      else if negb (forallb (fun j => isfin (fsub (bound_at hi j) (bound_at lo j)))
                            (seq 0 (Nat.max (bound_len lo) (bound_len hi)))) then (Raise OverflowError, w)
      else if (size <? 0)%Z then (Raise ValueError, w)
      else if negb (broadcasts (bound_len lo) n && broadcasts (bound_len hi) n) then (Raise ValueError, w)
      else
        let (u, w') := g_unif g (Z.to_nat size) n w in
        (Ok (float_arr (Z.to_nat size) n (fun i j =>
           fadd (bound_at lo j) (fmul (fsub (bound_at hi j) (bound_at lo j)) (u i j)))), w')
  end.

(** [np.random.multivariate_normal(mean, cov, size)]: shape checks, then the oracle. *)
Definition np_mvn {W} (g : rng W) (mean : list f64) (cov : list (list f64)) (size : Z) (w : W) : res arr * W :=
  let n := List.length mean in
  if negb (Nat.eqb (List.length cov) n && forallb (fun r => Nat.eqb (List.length r) n) cov) then (Raise ValueError, w)
  else if (size <? 0)%Z then (Raise ValueError, w)
  else match g_mvn g mean cov (Z.to_nat size) w with
       | (Ok d, w') => (Ok (float_arr (Z.to_nat size) n d), w')
       | (Raise e, w') => (Raise e, w')
       end.

(* ------------------------------------------------------------------ *)
(** ** np.random.choice *)

(** Compensated summation (mtrand.pyx, kahan_sum). *)
Fixpoint kahan_from (sum c : f64) (l : list f64) : f64 :=
  match l with
  | [] => sum
  | x :: l' =>
      let y := fsub x c in
      let t := fadd sum y in
      kahan_from t (fsub (fsub t sum) y) l'
  end.
(** [kahan_sum] of numpy, called by [choice] (univariate_categorical.py:56-57, categorical_geninit.py:46). *)
Definition kahan_sum (l : list f64) : f64 :=
  match l with [] => Z2f 0 | x :: l' => kahan_from x (Z2f 0) l' end.

(** sqrt(finfo(float64).eps) = 2^-26 *)
Definition choice_atol : f64 := lit 1 (-26).

(** [abs(x)]. *)
Definition fabs (x : f64) : f64 := BinarySingleNaN.Babs x.

(** The validation of [p] (mtrand.pyx, choice). *)
Definition probs_ok (p : list f64) : bool :=
  let s := kahan_sum p in
  negb (isnan s) && forallb (fun x => negb (flt x (Z2f 0))) p
    && negb (flt choice_atol (fabs (fsub s fone))).

(** [p.cumsum()] *)
Fixpoint cumsum_from (acc : f64) (l : list f64) : list f64 :=
  match l with [] => [] | x :: l' => let s := fadd acc x in s :: cumsum_from s l' end.
(** [p.cumsum()], inside [choice] (univariate_categorical.py:56-57). *)
Definition cumsum (l : list f64) : list f64 :=
  match l with [] => [] | x :: l' => x :: cumsum_from x l' end.

(** [cdf = p.cumsum(); cdf /= cdf[-1]] *)
Definition cdf (p : list f64) : list f64 :=
  let s := cumsum p in map (fun x => fdiv x (last s fnan)) s.

(** [cdf.searchsorted(u, side='right')]: numpy's binary search. *)
Fixpoint bsearch (fuel lo hi : nat) (key : f64) (l : list f64) : nat :=
  match fuel with
  | O => lo
  | S f =>
      if Nat.ltb lo hi then
        let mid := lo + (hi - lo) / 2 in
        if flt key (nth mid l fnan) then bsearch f lo mid key l else bsearch f (S mid) hi key l
      else lo
  end.
(** [searchsorted(key, side='right')], inside [choice]. *)
Definition searchsorted_right (l : list f64) (key : f64) : nat := bsearch (S (List.length l)) 0 (List.length l) key l.

(** [np.random.choice(a, size, p=p)] *)
Definition np_choice {W A} (g : rng W) (a : list A) (size : Z) (p : list f64) (w : W) : res (list A) * W :=
  if (size <? 0)%Z then (Raise ValueError, w)
  else if Nat.eqb (List.length a) 0 && negb (Z.eqb size 0) then (Raise ValueError, w)
  else if negb (Nat.eqb (List.length p) (List.length a)) then (Raise ValueError, w)
  else if negb (probs_ok p) then (Raise ValueError, w)
  else
    let (u, w') := g_unif g (Z.to_nat size) 1 w in
    (gather (tabulate (Z.to_nat size) (fun i => searchsorted_right (cdf p) (u i 0))) a, w').

(** [np.random.choice(a, size)] without probabilities. *)
Definition np_choice_any {W A} (g : rng W) (a : list A) (size : nat) (w : W) : res (list A) * W :=
  if Nat.eqb (List.length a) 0 && negb (Nat.eqb size 0) then (Raise ValueError, w)
  else let (k, w') := g_pick g (List.length a) size w in
       (gather (tabulate size k) a, w').

Lemma tabulate_length {A} n (f : nat -> A) : List.length (tabulate n f) = n.
Proof. unfold tabulate. rewrite map_length, seq_length. reflexivity. Qed.

Lemma nth_error_tabulate {A} n (f : nat -> A) i : i < n -> nth_error (tabulate n f) i = Some (f i).
Proof.
  intros H. unfold tabulate. rewrite nth_error_map, (nth_error_nth' _ 0); [|rewrite seq_length; exact H].
  rewrite seq_nth by exact H. reflexivity.
Qed.

Lemma tabulate_In {A} n (f : nat -> A) x : In x (tabulate n f) <-> exists i, i < n /\ x = f i.
Proof.
  unfold tabulate. rewrite in_map_iff. split.
  - intros (i & <- & Hi). apply in_seq in Hi. exists i. split; [lia|reflexivity].
  - intros (i & Hi & ->). exists i. split; [reflexivity|]. apply in_seq. lia.
Qed.

Lemma Forall_tabulate {A} (P : A -> Prop) n (f : nat -> A) : (forall i, i < n -> P (f i)) -> Forall P (tabulate n f).
Proof. intros H. apply Forall_forall. intros x Hx. apply tabulate_In in Hx as (i & Hi & ->). apply H, Hi. Qed.

Lemma nth_tabulate {A} n (f : nat -> A) i d : i < n -> nth i (tabulate n f) d = f i.
Proof. intros H. apply nth_error_nth, nth_error_tabulate, H. Qed.
