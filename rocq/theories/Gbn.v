(** The Gaussian Bayesian network
    (EDAspy/optimization/custom/probabilistic_models/gaussian_bayesian_network.py).

    pybnesian's fitted network is represented by what the code reads from it: the topological
    order and, for every node, its conditional distribution - parents (cpd.evidence()),
    coefficients with the intercept first (cpd.beta) and variance (cpd.variance).  Numbers are an
    arbitrary type with operations, so that every function exists over doubles and over the
    reals. *)
From Coq Require Import String List ZArith Bool.
From Verif Require Import PyBase Models.
Import ListNotations.
Open Scope res_scope.
Open Scope nat_scope.

(** What is read from one [self.pm.cpd(node)] (gaussian_bayesian_network.py:139-140, 169-171). *)
Record cpd (T : Type) := mkCpd { d_parents : list string; d_beta : list T; d_var : T }.
Arguments mkCpd {T}. Arguments d_parents {T}. Arguments d_beta {T}. Arguments d_var {T}.
(** What is read from a fitted [self.pm] (gaussian_bayesian_network.py:134, 163). *)
Record network (T : Type) := mkNet { n_order : list string; n_cpd : string -> cpd T }.
Arguments mkNet {T}. Arguments n_order {T}. Arguments n_cpd {T}.

(** list.index: ValueError when absent *)
Fixpoint index (x : string) (l : list string) : res nat :=
  match l with
  | [] => Raise ValueError
  | y :: l' => if String.eqb x y then Ok 0 else rmap S (index x l')
  end.

(** for x in l: s = f(x, s) *)
Fixpoint each {A S : Type} (f : A -> S -> res S) (l : list A) (s : S) : res S :=
  match l with
  | [] => Ok s
  | x :: l' => s' <-? f x s ; each f l' s'
  end.

(** v[i] = x and m[i, j] = x for indices in range *)
Fixpoint vset {A : Type} (i : nat) (x : A) (l : list A) : list A :=
  match l, i with
  | [], _ => []
  | _ :: l', 0 => x :: l'
  | y :: l', S i' => y :: vset i' x l'
  end.

(** The order in which sets are iterated over: [ord_list l] of a set into which the elements of [l]
    were inserted in that order, [ord_copy l] of a copy of a set that is iterated over in the order
    [l].  Both are arbitrary: they depend on the hash seed and on the sizes of the tables. *)
Record set_order := mkOrd { ord_list : list string -> list string; ord_copy : list string -> list string }.

Section Net.
Context {T : Type} (o : ops T).

(** An entry of [np.zeros] (135, 164). *)
Definition zero : T := o_ofZ o 0.
(** [v[i]]. *)
Definition vget (i : nat) (l : list T) : T := nth i l zero.
(** [m[i, j]]. *)
Definition mget (i j : nat) (m : list (list T)) : T := vget j (nth i m []).
(** [m[i, j] = x]. *)
Definition mset (i j : nat) (x : T) (m : list (list T)) : list (list T) := vset i (vset j x (nth i m [])) m.

(** for j in range(1, len(coefs)): parent_name = parents[j-1]; ... coefs[j] ...
    (143-145, 173-176, 185-187): [f parent coef] updates the state. *)
Fixpoint terms {S : Type} (f : string -> T -> S -> res S) (parents : list string) (coefs : list T) (s : S) : res S :=
  match coefs with
  | [] => Ok s
  | c :: coefs' =>
      match parents with
      | [] => Raise IndexError
      | p :: parents' => s' <-? f p c s ; terms f parents' coefs' s'
      end
  end.

(** get_mu, one node (137-145) *)
Definition mu_node (N : network T) (i : nat) (mu : list T) : res (list T) :=
  let d := n_cpd N (nth i (n_order N) EmptyString) in
  match d_beta d with
  | [] => Raise IndexError
  | b0 :: bs =>
      terms (fun p c mu => k <-? index p (n_order N) ; Ok (vset i (o_add o (vget i mu) (o_mul o c (vget k mu))) mu))
            (d_parents d) bs (vset i b0 mu)
  end.

(** the means in topological order (134-145) *)
Definition all_mu (N : network T) : res (list T) :=
  let n := List.length (n_order N) in each (mu_node N) (seq 0 n) (repeat zero n).

(** idx = [top_order.index(i) for i in vars] (148, 194) *)
Definition positions (N : network T) (vars : list string) : res (list nat) := rmapM (fun v => index v (n_order N)) vars.

(** get_mu (124-151); [if var_mus:] treats an empty list like None *)
Definition get_mu (N : network T) (vars : list string) : res (list T) :=
  mu <-? all_mu N ;
  match vars with
  | [] => Ok mu
  | _ => idx <-? positions N vars ; Ok (map (fun k => vget k mu) idx)
  end.

(** get_sigma, diagonal (167-176) *)
Definition var_node (N : network T) (i : nat) (m : list (list T)) : res (list (list T)) :=
  let d := n_cpd N (nth i (n_order N) EmptyString) in
  terms (fun p c m => k <-? index p (n_order N) ;
                      Ok (mset i i (o_add o (mget i i m) (o_mul o (mget k k m) (o_mul o c c))) m))
        (d_parents d) (tl (d_beta d)) (mset i i (d_var d) m).

(** get_sigma, covariance of nodes i < j (180-189) *)
Definition cov_node (N : network T) (i j : nat) (m : list (list T)) : res (list (list T)) :=
  let d := n_cpd N (nth j (n_order N) EmptyString) in
  m' <-? terms (fun p c m => k <-? index p (n_order N) ;
                             Ok (mset i j (o_add o (mget i j m) (o_mul o c (mget i k m))) m))
               (d_parents d) (tl (d_beta d)) m ;
  Ok (mset j i (mget i j m') m').

(** the matrix in topological order (163-189) *)
Definition all_sigma (N : network T) : res (list (list T)) :=
  let n := List.length (n_order N) in
  m <-? each (var_node N) (seq 0 n) (repeat (repeat zero n) n) ;
  each (fun i => each (fun j => cov_node N i j) (seq (S i) (n - S i))) (seq 0 n) m.

(** np.abs, up to the sign of a zero, which no comparison sees *)
Definition nabs (x : T) : T := if o_ltb o x zero then o_sub o zero x else x.

(** _check_symmetric (10-11) on an n x n matrix; 1e-8 is a parameter *)
Definition check_symmetric (tol : T) (n : nat) (m : list (list T)) : bool :=
  forallb (fun i => forallb (fun j => o_ltb o (nabs (o_sub o (mget i j m) (mget j i m))) tol) (seq 0 n)) (seq 0 n).

(** get_sigma (153-197); np.ix_ selects rows and columns *)
Definition get_sigma (tol : T) (N : network T) (vars : list string) : res (list (list T)) :=
  m <-? all_sigma N ;
  if check_symmetric tol (List.length (n_order N)) m
  then match vars with
       | [] => Ok m
       | _ => idx <-? positions N vars ; Ok (map (fun i => map (fun j => mget i j m) idx) idx)
       end
  else Raise AssertionError.

(** np.dot of a matrix and a vector, and of two matrices (the second given by its columns count) *)
Definition dot (u v : list T) : T := o_sum o (map (fun xy => o_mul o (fst xy) (snd xy)) (combine u v)).
(** [np.dot(m, v)] (225). *)
Definition matvec (m : list (list T)) (v : list T) : list T := map (fun r => dot r v) m.
(** A column. *)
Definition mcol (j : nat) (m : list (list T)) : list T := map (vget j) m.
(** [np.dot(a, b)] (226). *)
Definition matmul (c : nat) (a b : list (list T)) : list (list T) := map (fun r => map (fun j => dot r (mcol j b)) (seq 0 c)) a.
(** [u + v] (225). *)
Definition vadd (u v : list T) : list T := map (fun xy => o_add o (fst xy) (snd xy)) (combine u v).
(** [u - v] (225). *)
Definition vsub (u v : list T) : list T := map (fun xy => o_sub o (fst xy) (snd xy)) (combine u v).
(** [a - b] (226). *)
Definition msub (a b : list (list T)) : list (list T) := map (fun rs => vsub (fst rs) (snd rs)) (combine a b).

(** np.array(evidence) - mu_2: lengths must agree, or the evidence has length one; any other
    pair of lengths fails here or in the product that follows *)
Definition deviation (evidence mu2 : list T) : res (list T) :=
  if Nat.eqb (List.length evidence) (List.length mu2) then Ok (vsub evidence mu2)
  else match evidence with
       | [x] => Ok (map (o_sub o x) mu2)
       | _ => Raise ValueError
       end.

(** [x in l]. *)
Definition mem (x : string) (l : list string) : bool := existsb (String.eqb x) l.
(** list(set(a) - set(b)) (47, 209).  CPython fills a new set in the order of the first, or, when
    the first is much larger (len(a) >> 2 > len(b)), copies it and removes elements. *)
Definition set_minus (ord : set_order) (a b : list string) : list string :=
  let keep := filter (fun x => negb (mem x b)) in
  if Nat.ltb (List.length (ord_list ord b)) (Nat.div2 (Nat.div2 (List.length (ord_list ord a))))
  then keep (ord_copy ord (ord_list ord a))
  else ord_list ord (keep (ord_list ord a)).

(** inference (199-228); [pinv] is np.linalg.pinv; self.top_order is the order of the fitted net *)
Definition inference (tol : T) (ord : set_order) (pinv : list (list T) -> res (list (list T)))
    (N : network T) (evidence : list T) (var_names : list string) : res (list T * list (list T)) :=
  let vars1 := set_minus ord (n_order N) var_names in
  let k := List.length vars1 in
  let l := List.length var_names in
  mus <-? get_mu N (vars1 ++ var_names) ;
  let mu1 := firstn k mus in
  let mu2 := skipn k mus in
  sigma <-? get_sigma tol N (vars1 ++ var_names) ;
  let s11 := map (firstn k) (firstn k sigma) in
  let s12 := map (skipn k) (firstn k sigma) in
  let s21 := map (firstn k) (skipn k sigma) in
  let s22 := map (skipn k) (skipn k sigma) in
  p <-? pinv s22 ;
  dev <-? deviation evidence mu2 ;
  Ok (vadd mu1 (matvec s12 (matvec p dev)), msub s11 (matmul k s12 (matmul k p s21))).

(** maximum_a_posteriori (230-235); [fitted] is self.fitted *)
Definition maximum_a_posteriori (fitted : bool) tol ord pinv N evidence var_names : res (list T) :=
  if fitted then rmap fst (inference tol ord pinv N evidence var_names) else Raise AssertionError.

(** A pandas frame, as its columns. *)
Definition frame : Type := list (string * list T).
(** [dataset[v]] (105). *)
Definition fcol (f : frame) (v : string) : res (list T) :=
  match find (fun c => String.eqb v (fst c)) f with Some c => Ok (snd c) | None => Raise (KeyError v) end.
(** dataset[var] = value *)
Definition fset (v : string) (x : T) (rows : nat) (f : frame) : frame :=
  if existsb (fun c => String.eqb v (fst c)) f
  then map (fun c => if String.eqb v (fst c) then (v, repeat x rows) else c) f
  else f ++ [(v, repeat x rows)].

(** _sample_evidence with ordered=True (95-107) and the constructor's vars_1, vars_2 (46-49).
    [evidences] is the dictionary in insertion order, [draw mu cov] the matrix returned by
    np.random.multivariate_normal(mu, cov, size): its columns. *)
Definition sample_evidence tol ord pinv (draw : list T -> list (list T) -> res (list (list T))) (size : nat)
    (variables : list string) (evidences : list (string * T)) (N : network T) : res (list (list T)) :=
  let vars1 := set_minus ord variables (map fst evidences) in
  mc <-? inference tol ord pinv N (map snd evidences) (map fst evidences) ;
  cols <-? draw (fst mc) (snd mc) ;
  if Nat.eqb (List.length cols) (List.length vars1) then
    let f := fold_left (fun f e => fset (fst e) (snd e) size f) evidences (combine vars1 cols) in
    rmapM (fcol f) variables
  else Raise ValueError.

End Net.

(* ------------------------------------------------------------------ *)
(** ** White and black lists (GBN.learn 63-77, SPBN.learn 47-62, KDEBN.learn 48-63)

    [hc white black] is pybnesian's hill climbing on the data: the arguments are the lists passed
    as arc_whitelist and arc_blacklist, None when the keyword is absent.  The result is the list of
    arcs of the network found, or an exception.  The three classes choose the same call. *)
Definition arc : Type := string * string.
(** [if self.white_list], [if self.black_list] (66-71). *)
Definition truthy {A : Type} (l : option (list A)) : bool := match l with Some (_ :: _) => true | _ => false end.
(** The choice of the call (gaussian_bayesian_network.py:66-74). *)
Definition learn_arcs (hc : option (list arc) -> option (list arc) -> res (list arc)) (white black : option (list arc)) : res (list arc) :=
  if truthy white && truthy black then hc white black
  else if truthy white then hc white None
  else if truthy black then hc None black
  else hc None None.
