(** EDAspy/optimization/tools.py: adjacency matrices and the layout of a plotted network. *)
From Coq Require Import String List ZArith Bool Lia.
From Flocq Require Import IEEE754.BinarySingleNaN.
From Verif Require Import PyBase B64 NdArray Gbn.
Import ListNotations.
Local Open Scope res_scope.

(** ** arcs2adj_mat (9-25)

    An end of an arc as the caller writes it: an integer, or something numpy does not accept as
    one coordinate of an element (a name, a float).
    Simplification: booleans, slices and arrays as ends are not modelled. *)
Inductive node := At (i : Z) | Other (name : string).

(** matrix[a, ...] along an axis of length [n]: negative integers count from the end. *)
Definition axis_index (n : nat) (a : node) : res nat :=
  match a with
  | Other _ => Raise IndexError
  | At i => if (0 <=? i)%Z && (i <? Z.of_nat n)%Z then Ok (Z.to_nat i)
            else if (- Z.of_nat n <=? i)%Z && (i <? 0)%Z then Ok (Z.to_nat (Z.of_nat n + i))
            else Raise IndexError
  end.

(** np.zeros((n_variables, n_variables)) and the loop of 21-23 *)
Definition put_arc (n : nat) (a : node * node) (m : list (list f64)) : res (list (list f64)) :=
  i <-? axis_index n (fst a) ; j <-? axis_index n (snd a) ; Ok (mset i j (Z2f 1) m).
(** [arcs2adj_mat] (9-25). *)
Definition arcs2adj_mat (arcs : list (node * node)) (n_variables : Z) : res (list (list f64)) :=
  if (n_variables <? 0)%Z then Raise ValueError
  else let n := Z.to_nat n_variables in each (put_arc n) arcs (repeat (repeat (Z2f 0) n) n).

(** ** _set_positions (34-50) *)
Definition fceil (x : f64) : f64 := Bnearbyint mode_UP x.
(** int(np.sqrt(n_variables)) (36) *)
Definition n_cols (n : nat) : res Z := py_int (fsqrt (Z2f (Z.of_nat n))).
(** int(np.ceil(n_variables / n_cols)) (37) *)
Definition n_rows (n : nat) (cols : Z) : res Z :=
  if (cols =? 0)%Z then Raise ZeroDivisionError else py_int (fceil (fdiv (Z2f (Z.of_nat n)) (Z2f cols))).
(** 39-42: range of a negative number is empty *)
Definition pos_list (rows cols : Z) : list (Z * Z) :=
  flat_map (fun row => map (fun col => (Z.of_nat col, (- Z.of_nat row)%Z)) (seq 0 (Z.to_nat cols))) (seq 0 (Z.to_nat rows)).

(** A dictionary keyed by names, in insertion order. *)
Definition layout : Type := list (string * (Z * Z)).
(** [d[v] = p] (50). *)
Fixpoint dput (v : string) (p : Z * Z) (d : layout) : layout :=
  match d with
  | [] => [(v, p)]
  | (u, q) :: d' => if String.eqb v u then (u, p) :: d' else (u, q) :: dput v p d'
  end.
(** [d[v]], [d.get(v)]. *)
Fixpoint dget (v : string) (d : layout) : option (Z * Z) :=
  match d with [] => None | (u, q) :: d' => if String.eqb v u then Some q else dget v d' end.

(** {variables[i]: pos_list[i] for i in range(n_variables)} (50) *)
Fixpoint assign (vars : list string) (ps : list (Z * Z)) (d : layout) : res layout :=
  match vars, ps with
  | [], _ => Ok d
  | _ :: _, [] => Raise IndexError
  | v :: vars', p :: ps' => assign vars' ps' (dput v p d)
  end.
(** [_set_positions] (34-50). *)
Definition set_positions (variables : list string) : res layout :=
  let n := List.length variables in
  c <-? n_cols n ; r <-? n_rows n c ; assign variables (pos_list r c) [].

(** ** plot_bn (53-119): what is drawn and where

    nx.DiGraph keeps each node and each edge once, the nodes in order of first appearance; add_edges_from adds
    the ends that are not nodes yet.  networkx refuses to draw a node without a position
    (NetworkXError, here [PlainException]).
    Simplification: colours, sizes, curvature, titles and files are not modelled; the names are
    strings. *)
Definition add_new {A} (eqb : A -> A -> bool) (l : list A) (x : A) : list A := if existsb (eqb x) l then l else l ++ [x].
(** The nodes of the graph (93-94). *)
Definition nodes_of (arcs : list arc) (var_names : list string) : list string :=
  fold_left (add_new String.eqb) (flat_map (fun a => [fst a; snd a]) arcs) (fold_left (add_new String.eqb) var_names []).
(** The same edge. *)
Definition arc_eqb (a b : arc) : bool := String.eqb (fst a) (fst b) && String.eqb (snd a) (snd b).
(** [g.edges()] (94, 103): the edges that leave the first node, the second node, ... *)
Definition edges_of (arcs : list arc) (var_names : list string) : list arc :=
  flat_map (fun u => filter (fun a => String.eqb u (fst a)) (fold_left (add_new arc_eqb) arcs [])) (nodes_of arcs var_names).
(** The position of a node (99-109). *)
Definition place (d : layout) (v : string) : res (string * (Z * Z)) := match dget v d with Some p => Ok (v, p) | None => Raise PlainException end.
(** [pos] is None or a dictionary; an empty one is falsy (96-97) *)
Definition plot_bn (arcs : list arc) (var_names : list string) (pos : option layout) : res (list (string * (Z * Z)) * list arc) :=
  d <-? (match pos with Some ((_ :: _) as d) => Ok d | _ => set_positions var_names end) ;
  drawn <-? rmapM (place d) (nodes_of arcs var_names) ;
  Ok (drawn, edges_of arcs var_names).
