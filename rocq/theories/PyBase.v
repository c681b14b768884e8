(** Python-level vocabulary: exceptions as values, slices, numbers.

    Nothing here is specific to EDAspy; these are the few pieces of Python
    semantics the model needs.  *)
From Coq Require Import List ZArith Bool String Lia.
Import ListNotations.

(** The exception classes that the modelled code can raise. *)
Inductive exn :=
| ValueError
| IndexError
| TypeError
| KeyError (key : string)
| AssertionError
| ZeroDivisionError
| OverflowError
| UFuncTypeError        (* numpy: in-place result cannot be cast to the array's dtype *)
| FileNotFoundError
| AttributeError
| PlainException        (* raise Exception(...) *)
| LinAlgError
| UserExn (code : Z).   (* whatever a user's cost function or an external library raises *)

(** Result of a Python expression: a value, or an exception. *)
Inductive res (A : Type) :=
| Ok (a : A)
| Raise (e : exn).
Arguments Ok {A} a.
Arguments Raise {A} e.

(** An exception ends the evaluation (every statement that can raise, e.g. eda.py:84-88). *)
Definition rbind {A B} (r : res A) (f : A -> res B) : res B :=
  match r with Ok a => f a | Raise e => Raise e end.

(** A function applied to the value of an expression that may raise (e.g. eda.py:194-198). *)
Definition rmap {A B} (f : A -> B) (r : res A) : res B :=
  match r with Ok a => Ok (f a) | Raise e => Raise e end.

Declare Scope res_scope.
Delimit Scope res_scope with res.
Notation "x <-? a ; b" := (rbind a (fun x => b))
  (at level 61, a at next level, right associativity) : res_scope.

(** mapM for [res]: evaluates left to right, stops at the first exception. *)
Fixpoint rmapM {A B} (f : A -> res B) (l : list A) : res (list B) :=
  match l with
  | [] => Ok []
  | x :: l' => rbind (f x) (fun y => rbind (rmapM f l') (fun ys => Ok (y :: ys)))
  end.

(** No exception was raised.  Not code: used in statements. *)
Definition is_ok {A} (r : res A) : bool := match r with Ok _ => true | Raise _ => false end.

(** Python slice [l[:k]]: a negative [k] counts from the end. *)
Definition slice_to {A} (k : Z) (l : list A) : list A :=
  if (0 <=? k)%Z then firstn (Z.to_nat k) l
  else firstn (Z.to_nat (Z.of_nat (List.length l) + k)) l.

(** Python slice [l[k:]]: a negative [k] counts from the end. *)
Definition slice_from {A} (k : Z) (l : list A) : list A :=
  if (0 <=? k)%Z then skipn (Z.to_nat k) l
  else skipn (Z.to_nat (Z.of_nat (List.length l) + k)) l.

(** Fancy indexing [l[idx]] with non-negative indices: IndexError when one is out of range. *)
Fixpoint gather {A} (idx : list nat) (l : list A) : res (list A) :=
  match idx with
  | [] => Ok []
  | i :: idx' =>
      match nth_error l i with
      | None => Raise IndexError
      | Some a => rbind (gather idx' l) (fun r => Ok (a :: r))
      end
  end.

(** Positions at which a predicate holds ([np.where(mask)[0]]). *)
Fixpoint where_from {A} (p : A -> bool) (i : nat) (l : list A) : list nat :=
  match l with
  | [] => []
  | x :: l' => if p x then i :: where_from p (S i) l' else where_from p (S i) l'
  end.
(** [np.where(mask)[0]] (eda.py:174, 197). *)
Definition np_where {A} (p : A -> bool) (l : list A) : list nat := where_from p 0 l.

(** [xs[0]] *)
Definition first_or_IndexError {A} (l : list A) : res A :=
  match l with [] => Raise IndexError | x :: _ => Ok x end.

(* ------------------------------------------------------------------ *)
(** ** Basic facts *)

Lemma slice_to_nonneg {A} (k : Z) (l : list A) :
  (0 <= k)%Z -> slice_to k l = firstn (Z.to_nat k) l.
Proof. intros Hk. unfold slice_to. destruct (Z.leb_spec 0 k); [reflexivity | lia]. Qed.

Lemma slice_to_firstn {A} (k : Z) (l : list A) : exists n, slice_to k l = firstn n l.
Proof. unfold slice_to. destruct (0 <=? k)%Z; eexists; reflexivity. Qed.

Lemma gather_ok_Forall2 {A} (idx : list nat) (l out : list A) :
  gather idx l = Ok out <-> Forall2 (fun i a => nth_error l i = Some a) idx out.
Proof.
  revert out. induction idx as [|i idx IH]; intros out; cbn [gather].
  - split; [intros H; injection H as <-; constructor | intros H; inversion H; reflexivity].
  - destruct (nth_error l i) as [a|] eqn:Ha.
    + split.
      * intros H. destruct (gather idx l) as [r|e] eqn:Hr; cbn in H; [|discriminate].
        injection H as <-. constructor; [exact Ha | apply IH; reflexivity].
      * intros H. inversion H as [|? a' ? r Ha' Hrest]; subst.
        rewrite Ha in Ha'; injection Ha' as <-.
        apply IH in Hrest. rewrite Hrest. reflexivity.
    + split; [discriminate|]. intros H. inversion H as [|? a' ? r Ha' Hrest]; subst. congruence.
Qed.

Lemma gather_in_range {A} (idx : list nat) (l : list A) :
  Forall (fun i => i < List.length l) idx -> exists out, gather idx l = Ok out.
Proof.
  induction idx as [|i idx IH]; intros H; cbn [gather]; [eexists; reflexivity|].
  inversion H as [|? ? Hi Hrest]; subst.
  destruct (nth_error l i) as [a|] eqn:Ha.
  - destruct (IH Hrest) as [out Hout]. rewrite Hout. eexists; reflexivity.
  - apply nth_error_None in Ha. lia.
Qed.

Lemma gather_map {A} (d : A) (idx : list nat) (l : list A) :
  Forall (fun i => i < List.length l) idx -> gather idx l = Ok (map (fun i => nth i l d) idx).
Proof.
  induction idx as [|i idx IH]; intros H; cbn [gather map]; [reflexivity|].
  inversion H as [|? ? Hi Hrest]; subst.
  rewrite (nth_error_nth' l d Hi), (IH Hrest). reflexivity.
Qed.

Lemma where_from_spec {A} (p : A -> bool) (l : list A) (i k : nat) :
  In k (where_from p i l) <-> (i <= k /\ exists x, nth_error l (k - i) = Some x /\ p x = true).
Proof.
  revert i. induction l as [|x l IH]; intros i; cbn [where_from].
  - split; [intros []|]. intros [_ [y [Hy _]]]. destruct (k - i); discriminate.
  - assert (Hcase : In k (where_from p (S i) l) <->
                    (S i <= k /\ exists y, nth_error l (k - S i) = Some y /\ p y = true)) by apply IH.
    destruct (p x) eqn:Hp; cbn [In]; rewrite ?Hcase; split.
    + intros [->|[Hle [y [Hy Hpy]]]].
      * split; [lia|]. exists x. replace (k - k) with 0 by lia. split; [reflexivity|exact Hp].
      * split; [lia|]. exists y. replace (k - i) with (S (k - S i)) by lia. split; [exact Hy|exact Hpy].
    + intros [Hle [y [Hy Hpy]]]. destruct (Nat.eq_dec i k) as [->|Hne]; [left; reflexivity|right].
      split; [lia|]. exists y. replace (k - i) with (S (k - S i)) in Hy by lia. split; [exact Hy|exact Hpy].
    + intros [Hle [y [Hy Hpy]]]. split; [lia|]. exists y.
      replace (k - i) with (S (k - S i)) by lia. split; [exact Hy|exact Hpy].
    + intros [Hle [y [Hy Hpy]]]. destruct (Nat.eq_dec i k) as [->|Hne].
      * replace (k - k) with 0 in Hy by lia. cbn in Hy. injection Hy as <-. congruence.
      * split; [lia|]. exists y. replace (k - i) with (S (k - S i)) in Hy by lia. split; [exact Hy|exact Hpy].
Qed.

Lemma np_where_first {A} (p : A -> bool) (l : list A) (k : nat) :
  first_or_IndexError (np_where p l) = Ok k ->
  exists x, nth_error l k = Some x /\ p x = true.
Proof.
  intros H. assert (Hin : In k (np_where p l)).
  { destruct (np_where p l) as [|j r]; cbn in H; [discriminate|]. injection H as ->. left; reflexivity. }
  apply where_from_spec in Hin as [_ [x [Hx Hp]]].
  exists x. replace (k - 0) with k in Hx by lia. split; assumption.
Qed.

Lemma np_where_some {A} (p : A -> bool) (l : list A) (x : A) :
  In x l -> p x = true -> exists k, first_or_IndexError (np_where p l) = Ok k.
Proof.
  intros Hin Hp. apply In_nth_error in Hin as [k Hk].
  assert (Hk' : In k (np_where p l)).
  { apply where_from_spec. split; [lia|]. exists x. replace (k - 0) with k by lia. split; assumption. }
  destruct (np_where p l) as [|j r]; [destruct Hk'|]. eexists; reflexivity.
Qed.

Lemma np_where_none {A} (p : A -> bool) (l : list A) :
  (forall x, In x l -> p x = false) -> first_or_IndexError (np_where p l) = Raise IndexError.
Proof.
  intros H. destruct (np_where p l) as [|k r] eqn:E; [reflexivity|exfalso].
  assert (Hk : In k (np_where p l)) by (rewrite E; left; reflexivity).
  apply where_from_spec in Hk as [_ [x [Hx Hp]]]. apply nth_error_In in Hx.
  rewrite (H x Hx) in Hp. discriminate.
Qed.

Lemma rmapM_Forall2 {A B} (f : A -> res B) (l : list A) (out : list B) :
  rmapM f l = Ok out <-> Forall2 (fun a b => f a = Ok b) l out.
Proof.
  revert out. induction l as [|x l IH]; intros out; cbn [rmapM].
  - split; [intros H; injection H as <-; constructor | intros H; inversion H; reflexivity].
  - split.
    + intros H. destruct (f x) as [y|e] eqn:Hy; cbn in H; [|discriminate].
      destruct (rmapM f l) as [ys|e] eqn:Hys; cbn in H; [|discriminate].
      injection H as <-. constructor; [exact Hy | apply IH; reflexivity].
    + intros H. inversion H as [|? y ? ys Hy Hys]; subst.
      apply IH in Hys. rewrite Hy; cbn. rewrite Hys. reflexivity.
Qed.
