(** The network models as wrappers of the libraries: tables with named columns, what is handed
    to the structure learner and what is read back from a sample.

    EDAspy/optimization/custom/probabilistic_models/gaussian_bayesian_network.py,
    semiparametric_bayesian_network.py, kde_bayesian_network.py, discrete_bayesian_network.py,
    univariate_kde.py.  pybnesian, pgmpy and scipy are arbitrary functions ([library]). *)
From Coq Require Import String List ZArith Bool Decimal DecimalString DecimalNat.
From Verif Require Import PyBase B64 NdArray Models Gbn Stock.
Import ListNotations.
Open Scope nat_scope.

(** A pandas table: column names, rows, and the dtype [to_numpy] gives it. *)
Record table := mkTable { tb_dt : dtype; tb_cols : list string; tb_rows : list row }.

(** [pd.DataFrame(dataset, columns=variables)] (gaussian_bayesian_network.py:63,
    semiparametric_bayesian_network.py:47, kde_bayesian_network.py:48; with dtype="category" in
    discrete_bayesian_network.py:42, which keeps the values). *)
Definition to_table (variables : list string) (d : arr) : res table :=
  if Nat.eqb (a_nc d) (List.length variables) then Ok (mkTable (a_dt d) variables (a_rows d)) else Raise ValueError.

(** The positions of the columns called [v]. *)
Definition positions (v : string) (cols : list string) : list nat :=
  filter (fun p => String.eqb v (nth p cols ""%string)) (seq 0 (List.length cols)).

(** [dataset[variables].to_numpy()] (gaussian_bayesian_network.py:111,
    semiparametric_bayesian_network.py:86, kde_bayesian_network.py:76,
    discrete_bayesian_network.py:72): KeyError for a name that is not a column; a name occurring
    several times brings all its columns. *)
Definition pick_columns (variables : list string) (t : table) : res arr :=
  match filter (fun v => negb (existsb (String.eqb v) (tb_cols t))) variables with
  | v :: _ => Raise (KeyError v)
  | [] =>
      let ps := flat_map (fun v => positions v (tb_cols t)) variables in
      Ok (mkArr (tb_dt t) (List.length ps) (map (fun r => map (fun p => nth p r (CF fnan)) ps) (tb_rows t)))
  end.

(** [[str(i) for i in range(n)]]: the variables of EGNA, EBNA, BOA, SPEDA, MultivariateKEDA,
    UMDAcat and EDACustom (egna.py:87, ebna.py:99, boa.py:98, speda.py:94, keda.py:89,
    umda_categorical.py:93, eda_custom.py:78). *)
Definition str_nat (i : nat) : string := NilZero.string_of_uint (Nat.to_uint i).
(** The names of the variables (egna.py:87, ebna.py:99, boa.py:98, speda.py:94, keda.py:89). *)
Definition var_names (n : nat) : list string := map str_nat (seq 0 n).

Section Nets.
Context {W Net K : Type}.

(** What is called in pybnesian, pgmpy and scipy. *)
Record library := mkLib {
  l_new : pm_class -> list string -> Net;                         (* GaussianNetwork(variables), ... *)
  l_hc : pm_class -> table -> option Net -> option (list arc) -> option (list arc) -> option Z -> W -> res Net * W;
                     (* pybnesian.hc(data, start, arc_whitelist, arc_blacklist, num_folds) *)
  l_fit : table -> Net -> W -> res unit * (Net * W);              (* pm.fit(data) *)
  l_order : Net -> list string;                                   (* pm.graph().topological_sort() *)
  l_draw : Net -> Z -> W -> res table * W;                        (* pm.sample(size, ordered=True), pm.simulate(size) *)
  l_climb : table -> string -> W -> res (list arc) * W;           (* HillClimbSearch(data).estimate(score) *)
  l_nodes : list string -> Net -> Net;                            (* pm.add_nodes_from *)
  l_edge : arc -> Net -> res unit * Net;                          (* pm.add_edge *)
  l_arcs : Net -> list arc;                                       (* pm.arcs(), pm.edges() *)
  l_kde : arr -> res K;                                           (* gaussian_kde(dataset.T) *)
  l_resample : K -> Z -> W -> res arr * W                         (* kernel.resample(size).T *)
}.
Variable L : library.

(** A network model: constructor arguments and state. *)
Record netm := mkNetM {
  nm_vars : list string; nm_white : option (list arc); nm_black : option (list arc);
  nm_pm : Net;
  nm_top : option (list string); nm_fitted : bool                 (* GBN only *)
}.
(** [self.pm = x]. *)
Definition with_net (m : netm) (x : Net) : netm :=
  mkNetM (nm_vars m) (nm_white m) (nm_black m) x (nm_top m) (nm_fitted m).

(** The constructors (gaussian_bayesian_network.py:28-55,
    semiparametric_bayesian_network.py:22-37, kde_bayesian_network.py:23-38,
    discrete_bayesian_network.py:22-33); BN has no lists and starts without nodes. *)
Definition net_new (k : pm_class) (variables : list string) (white black : option (list arc)) : netm :=
  mkNetM variables white black (l_new L k (match k with KBN => [] | _ => variables end)) None false.

(** The call of [hc] with the lists that are not empty (gaussian_bayesian_network.py:66-74,
    semiparametric_bayesian_network.py:50-60, kde_bayesian_network.py:51-61); GBN passes no start
    and no number of folds. *)
Definition search (k : pm_class) (folds : Z) (data : table) (m : netm) (w : W) : res Net * W :=
  let start := match k with KGBN => None | _ => Some (nm_pm m) end in
  let nf := match k with KGBN => None | _ => Some folds end in
  let white := if truthy (nm_white m) then nm_white m else None in
  let black := if truthy (nm_black m) then nm_black m else None in
  l_hc L k data start white black nf w.

(** [SPBN.learn], [KDEBN.learn] (semiparametric_bayesian_network.py:39-62,
    kde_bayesian_network.py:40-63) and the first part of [GBN.learn]
    (gaussian_bayesian_network.py:57-76). *)
Definition net_learn (k : pm_class) (folds : Z) (d : arr) (m : netm) (w : W) : res unit * (netm * W) :=
  match to_table (nm_vars m) d with
  | Raise e => (Raise e, (m, w))
  | Ok data =>
      let m1 := with_net m (l_new L k (nm_vars m)) in
      match search k folds data m1 w with
      | (Raise e, w1) => (Raise e, (m1, w1))
      | (Ok net, w1) =>
          match l_fit L data net w1 with
          | (r, (net', w2)) => (r, (with_net m1 net', w2))
          end
      end
  end.

(** [GBN.learn] (gaussian_bayesian_network.py:57-79) *)
Definition gbn_learn (d : arr) (m : netm) (w : W) : res unit * (netm * W) :=
  match net_learn KGBN 0 d m w with
  | (Raise e, s) => (Raise e, s)
  | (Ok _, (m', w')) =>
      (Ok tt, (mkNetM (nm_vars m') (nm_white m') (nm_black m') (nm_pm m') (Some (l_order L (nm_pm m'))) true, w'))
  end.

(** [BN.learn] (discrete_bayesian_network.py:35-58) *)
Fixpoint add_edges (es : list arc) (x : Net) : res unit * Net :=
  match es with
  | [] => (Ok tt, x)
  | e :: es' => match l_edge L e x with (Raise ex, x') => (Raise ex, x') | (Ok _, x') => add_edges es' x' end
  end.
(** [BN.learn] (discrete_bayesian_network.py:35-58). *)
Definition bn_learn (score : string) (d : arr) (m : netm) (w : W) : res unit * (netm * W) :=
  match to_table (nm_vars m) d with
  | Raise e => (Raise e, (m, w))
  | Ok data =>
      let x0 := l_nodes L (nm_vars m) (l_new L KBN []) in
      match l_climb L data score w with
      | (Raise e, w1) => (Raise e, (with_net m x0, w1))
      | (Ok es, w1) =>
          match add_edges es x0 with
          | (Raise e, x1) => (Raise e, (with_net m x1, w1))
          | (Ok _, x1) => match l_fit L data x1 w1 with (r, (x2, w2)) => (r, (with_net m x2, w2)) end
          end
      end
  end.

(** [_sample_normal] of GBN (gaussian_bayesian_network.py:109-112) and [sample] of SPBN, KDEBN
    and BN (semiparametric_bayesian_network.py:75-87, kde_bayesian_network.py:65-77,
    discrete_bayesian_network.py:70-73). *)
Definition net_sample (m : netm) (size : Z) (w : W) : res arr * W :=
  match l_draw L (nm_pm m) size w with
  | (Raise e, w') => (Raise e, w')
  | (Ok t, w') => (pick_columns (nm_vars m) t, w')
  end.

(** [print_structure] of GBN, SPBN, KDEBN and BN (gaussian_bayesian_network.py:81-90,
    semiparametric_bayesian_network.py:64-73, kde_bayesian_network.py:79-88,
    discrete_bayesian_network.py:60-68). *)
Definition net_structure (m : netm) : list arc := l_arcs L (nm_pm m).

(** [UniKDE] (univariate_kde.py:16-39): no kernel before the first [learn]. *)
Definition kde_learn (d : arr) (k : option K) : res unit * option K :=
  match l_kde L d with Raise e => (Raise e, k) | Ok x => (Ok tt, Some x) end.
(** [UniKDE.sample] (univariate_kde.py:22-31). *)
Definition kde_sample (k : option K) (size : Z) (w : W) : res arr * W :=
  match k with None => (Raise AttributeError, w) | Some x => l_resample L x size w end.

End Nets.
Arguments library : clear implicits. Arguments netm : clear implicits.
