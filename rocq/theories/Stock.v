(** The optimisers of EDAspy.optimization: their constructors, setters and settings, and their
    runs as instances of the loop of Eda.v. *)
From Coq Require Import String List ZArith Bool Lia.
From Verif Require Import PyBase B64 NdArray Eda Rand Models Inits.
Import ListNotations.
Open Scope nat_scope.

(* ------------------------------------------------------------------ *)
(** ** Classes and identifiers *)

(** The classes of custom/probabilistic_models/__init__.py. *)
Inductive pm_class := KUniGauss | KUniBin | KMultiGauss | KGBN | KSPBN | KKDEBN | KBN | KUniKDE | KAdapt | KUniCat.
(** The classes of custom/initialization_models/__init__.py:7-12. *)
Inductive init_class := JUniGauss | JUniBin | JMultiGauss | JUniform | JLhs | JCat.

(** [self.id] of each class: univariate_gaussian.py:22, univariate_binary.py:27,
    multivariate_gaussian.py:30, gaussian_bayesian_network.py:54,
    semiparametric_bayesian_network.py:37, kde_bayesian_network.py:38,
    discrete_bayesian_network.py:33, univariate_kde.py:20,
    adaptive_univariate_gaussian.py:29; UniCategorical keeps _probabilistic_model.py:15. *)
Definition class_id (k : pm_class) : Z :=
  match k with
  | KUniGauss => 1 | KUniBin => 2 | KMultiGauss => 3 | KGBN => 4 | KSPBN => 5 | KKDEBN => 6
  | KBN => 7 | KUniKDE => 7 | KAdapt => 8 | KUniCat => -1
  end.

(** uni_gauss_geninit.py:47, uni_bin_geninit.py:31, multi_gauss_geninit.py:46,
    uniform_geninit.py:39, latin_hypercube_sampling_geninit.py:39, categorical_geninit.py:34 *)
Definition init_class_id (k : init_class) : Z :=
  match k with JUniGauss => 1 | JUniBin => 2 | JMultiGauss => 3 | JUniform => 4 | JLhs => 5 | JCat => 6 end.

(* ------------------------------------------------------------------ *)
(** ** Probabilistic models and initialisers as objects *)

Section Stock.
(** [X]: state of a model whose learning and sampling are done by pybnesian, pgmpy or scipy
    (GBN, SPBN, KDEBN, BN, UniKDE).  [W]: the outside world. *)
Context {X W : Type}.

(** An object assigned to [self.pm] (eda.py:224-244). *)
Inductive model :=
| MUniGauss (lower : f64) (pm : list (f64 * f64))
| MAdapt (lower alpha : f64) (pm : list (f64 * f64))
| MMulti (lower upper : f64) (p : mgauss (T := f64))
| MUniBin (m : unibin)
| MUniCat (t : cat_table)
| MExt (k : pm_class) (n : nat) (x : X).

(** The class of the object. *)
Definition model_class (m : model) : pm_class :=
  match m with
  | MUniGauss _ _ => KUniGauss | MAdapt _ _ _ => KAdapt | MMulti _ _ _ => KMultiGauss
  | MUniBin _ => KUniBin | MUniCat _ => KUniCat | MExt k _ _ => k
  end.

(** [len(self.variables)] (_probabilistic_model.py:11-13) *)
Definition model_width (m : model) : nat :=
  match m with
  | MUniGauss _ pm | MAdapt _ _ pm => List.length pm
  | MMulti _ _ p => List.length (mg_means p)
  | MUniBin b => ub_n b
  | MUniCat t => List.length t
  | MExt _ n _ => n
  end.

(** An object assigned to [self.init] (eda.py:246-266). *)
Inductive initr :=
| IUniGauss (i : unigauss_init)
| IUniBin (i : unibin_init)
| IMulti (i : mgauss_init)
| IUniform (u : uniform_init)
| ICat (i : cat_init).

(** The class of the object. *)
Definition initr_class (i : initr) : init_class :=
  match i with
  | IUniGauss _ => JUniGauss | IUniBin _ => JUniBin | IMulti _ => JMultiGauss | IUniform _ => JUniform | ICat _ => JCat
  end.

(** [self.n_variables] (_generation_init.py:11-12) *)
Definition initr_width (i : initr) : Z :=
  match i with
  | IUniGauss i => gi_n i | IUniBin i => bi_n i | IMulti i => mi_n i | IUniform u => ui_n u | ICat i => ci_n i
  end.

(** The libraries and the machine. *)
Record env := mkEnv {
  e_rng : rng W;                                              (* numpy.random *)
  e_sum : list f64 -> f64;                                    (* numpy's summation order *)
  e_str : cell -> string;                                     (* numpy's number to string conversion *)
  e_argsort : list f64 -> list nat;
  e_pool : pool;
  e_xnew : pm_class -> nat -> X;                              (* external models *)
  e_xlearn : pm_class -> arr -> X -> W -> res unit * (X * W);
  e_xsample : pm_class -> X -> Z -> W -> res arr * W
}.
Variable E : env.

(** [pm.learn(dataset)] *)
Definition model_learn (d : arr) (m : model) (w : W) : res unit * (model * W) :=
  match m with
  | MUniGauss lo pm => let (r, pm') := unigauss_learn (b64_ops (e_sum E)) lo (num_col d) pm in (r, (MUniGauss lo pm', w))
  | MAdapt lo al pm => let (r, pm') := adapt_learn (b64_ops (e_sum E)) lo al (num_col d) pm in (r, (MAdapt lo al pm', w))
  | MMulti lo hi p => let (r, p') := multigauss_learn (b64_ops (e_sum E)) lo hi (a_nc d) (num_col d) p in (r, (MMulti lo hi p', w))
  | MUniBin b => let (r, b') := unibin_learn d b in (r, (MUniBin b', w))
  | MUniCat t => let (r, t') := cat_learn d t in (r, (MUniCat t', w))
  | MExt k n x => match e_xlearn E k d x w with (r, (x', w')) => (r, (MExt k n x', w')) end
  end.

(** [pm.sample(size)] *)
Definition model_sample (m : model) (size : Z) (w : W) : res arr * W :=
  match m with
  | MUniGauss _ pm | MAdapt _ _ pm => gauss_sample (e_rng E) pm size w
  | MMulti _ _ p => multigauss_sample (e_rng E) p size w
  | MUniBin b => unibin_sample (e_rng E) b size w
  | MUniCat t => cat_sample (e_rng E) (e_str E) t size w
  | MExt k _ x => e_xsample E k x size w
  end.

(** [init.sample(size)] *)
Definition initr_sample (i : initr) (size : Z) (w : W) : res arr * W :=
  match i with
  | IUniGauss i => unigauss_init_sample (e_rng E) i size w
  | IUniBin i => unibin_init_sample (e_rng E) i size w
  | IMulti i => mgauss_init_sample (e_rng E) i size w
  | IUniform u => uniform_sample (e_rng E) u size w
  | ICat i => cat_init_sample (e_rng E) (e_str E) i size w
  end.

(* ------------------------------------------------------------------ *)
(** ** Optimisers *)

(** What changes when a model is trained: the model and, in the archive algorithms, the archive. *)
Record pmstate := mkPS { ps_pm : option model; ps_archive : arr }.

(** How the optimiser updates its model: from the selected individuals (eda.py:124-128) or
    from an archive of at most [l_len] rows (keda.py:93-111, speda.py:98-116). *)
Inductive updater := FromSelection | FromArchive (l_len : pynum).

(** What [export_settings] returns: that of EDA, or that of EDACustom with its bounds. *)
Inductive exporter := Plain | WithBounds (lo hi : pynum).

(** An EDA object: its configuration, [self.pm], [self.init], and the methods it overrides. *)
Record optimiser := mkOpt {
  op_cfg : cfg;
  op_st : pmstate;
  op_init : option initr;
  op_upd : updater;
  op_exp : exporter
}.

(** [self._pm = m] (eda.py:237). *)
Definition with_pm (o : optimiser) (m : model) : optimiser :=
  mkOpt (op_cfg o) (mkPS (Some m) (ps_archive (op_st o))) (op_init o) (op_upd o) (op_exp o).
(** [self._init = i] (eda.py:259). *)
Definition with_init (o : optimiser) (i : initr) : optimiser :=
  mkOpt (op_cfg o) (op_st o) (Some i) (op_upd o) (op_exp o).

(** A Python object assigned to [optimiser.pm] or [optimiser.init]. *)
Inductive value := VModel (m : model) | VInit (i : initr) | VOther.

(** The setters (eda.py:234-244, 256-266): the assignment comes before the dimension check. *)
Definition set_pm (v : value) (o : optimiser) : res unit * optimiser :=
  match v with
  | VModel m =>
      let o' := with_pm o m in
      if Z.eqb (Z.of_nat (model_width m)) (c_nvars (op_cfg o)) then (Ok tt, o') else (Raise PlainException, o')
  | _ => (Raise ValueError, o)
  end.
(** The setter of [init] (eda.py:256-266). *)
Definition set_init (v : value) (o : optimiser) : res unit * optimiser :=
  match v with
  | VInit i =>
      let o' := with_init o i in
      if Z.eqb (initr_width i) (c_nvars (op_cfg o)) then (Ok tt, o') else (Raise PlainException, o')
  | _ => (Raise ValueError, o)
  end.

(** An assignment inside a constructor: when it raises there is no object. *)
Definition assign_pm (m : model) (o : optimiser) : res optimiser :=
  let (r, o') := set_pm (VModel m) o in rmap (fun _ => o') r.
(** [self.init = ...] in a constructor (e.g. umda_continuous.py:102-104). *)
Definition assign_init (i : initr) (o : optimiser) : res optimiser :=
  let (r, o') := set_init (VInit i) o in rmap (fun _ => o') r.

(** [export_settings] (eda.py:130-146, eda_custom.py:107-126; note the key "dead_iter:").
    An optimiser without model or initialiser has no id to export. *)
Definition export (o : optimiser) : res dict :=
  let c := op_cfg o in
  match op_exp o with
  | Plain => Ok (export_settings c)
  | WithBounds lo hi =>
      match ps_pm (op_st o), op_init o with
      | Some m, Some i => Ok
          [("size_gen", SInt (c_size_gen c)); ("max_iter", SInt (c_max_iter c)); ("dead_iter:", SInt (c_dead_iter c));
           ("n_variables", SInt (c_nvars c)); ("pm", SInt (class_id (model_class m)));
           ("init", SInt (init_class_id (initr_class i))); ("alpha", SNum (c_alpha c));
           ("elite_factor", SNum (c_elite_factor c)); ("disp", SBool (c_disp c)); ("bounds", SBounds lo hi)]%string
      | _, _ => Raise AttributeError
      end
  end.

(** [_update_archive] (keda.py:101-103, speda.py:106-108): append the elite, keep the slice
    [-l_len:]; a float [l_len] cannot be an index. *)
Definition archive_slice (l_len : pynum) (a : arr) : res arr :=
  match l_len with
  | PyI l => Ok (mkArr (a_dt a) (a_nc a) (slice_from (- l) (a_rows a)))
  | PyF _ => Raise TypeError
  end.
(** [_update_archive] (keda.py:101-103, speda.py:106-108). *)
Definition update_archive (l_len : pynum) (elite archive : arr) : res arr * arr :=
  match np_concatenate archive elite with
  | Raise e => (Raise e, archive)
  | Ok a => match archive_slice l_len a with Ok a' => (Ok a', a') | Raise e => (Raise e, a) end
  end.

(** The data set handed to [pm.learn] (eda.py:128, keda.py:110-111, speda.py:115-116). *)
Definition data_of (u : updater) (gen elite : arr) (p : pmstate) : res arr * pmstate :=
  match u with
  | FromSelection => (Ok gen, p)
  | FromArchive l => let (r, a') := update_archive l elite (ps_archive p) in (r, mkPS (ps_pm p) a')
  end.

(** [minimize] of an optimiser with a given cost function. *)
Definition hooks_of (o : optimiser) (cost : row -> W -> res num * W) : hooks pmstate W := {|
  h_argsort := e_argsort E;
  h_cost := cost;
  h_pool := e_pool E;
  h_normal := fun scale w =>
    let (z, w') := g_gauss (e_rng E) (Z.to_nat (c_trunc_len (op_cfg o))) (Z.to_nat (c_nvars (op_cfg o))) w in
    (fun i j => fadd (Z2f 0) (fmul scale (z i j)), w');
  h_init := fun w => match op_init o with
                     | Some i => initr_sample i (c_size_gen (op_cfg o)) w
                     | None => (Raise AttributeError, w)
                     end;
  h_data := data_of (op_upd o);
  h_learn := fun d p w => match ps_pm p with
                          | Some m => match model_learn d m w with (r, (m', w')) => (r, (mkPS (Some m') (ps_archive p), w')) end
                          | None => (Raise AttributeError, (p, w))
                          end;
  h_sample := fun p w => match ps_pm p with
                         | Some m => model_sample m (c_size_gen (op_cfg o)) w
                         | None => (Raise AttributeError, w)
                         end;
  h_settings := match export o with Ok d => d | Raise _ => [] end
|}.

(** The attributes [minimize] overwrites, as the constructor leaves them (eda.py:56-63). *)
Definition blank : obj := mkObj (mkArr DFloat 0 []) [] (mkArr DFloat 0 []) [] (Z2f 999999999999) (BIdx 0).

(** A call of [minimize] on optimiser [o] with attributes [a] in world [w]. *)
Definition run_in (a : obj) (o : optimiser) (cost : row -> W -> res num * W) (ftol : f64) (out : bool) (w : W)
  : res result * st pmstate W :=
  minimize (op_cfg o) (hooks_of o cost) ftol out (mkSt a (op_st o) w []).
(** A first call of [minimize] (eda.py:148-222). *)
Definition run (o : optimiser) (cost : row -> W -> res num * W) (ftol : f64) (out : bool) (w : W)
  : res result * st pmstate W := run_in blank o cost ftol out w.

(** The optimiser after a call. *)
Definition after (o : optimiser) (s : st pmstate W) : optimiser :=
  mkOpt (op_cfg o) (s_pm s) (op_init o) (op_upd o) (op_exp o).

(* ------------------------------------------------------------------ *)
(** ** Constructors *)

(** Arguments shared by all algorithms. *)
Record args := mkArgs {
  g_size_gen : Z; g_max_iter : Z; g_dead_iter : Z; g_nvars : Z;
  g_alpha : pynum; g_elite_factor : pynum; g_disp : bool; g_parallelize : bool; g_init_data : option arr
}.

(** [super().__init__(...)]; [alpha] and [elite_factor] as the subclass passes them on. *)
Definition base (g : args) (alpha elite : pynum) (w_noise : option pynum) : res optimiser :=
  rmap (fun c => mkOpt c (mkPS None (mkArr DFloat (Z.to_nat (g_nvars g)) [])) None FromSelection Plain)
       (eda_init (g_size_gen g) (g_max_iter g) (g_dead_iter g) (g_nvars g) alpha elite
                 (g_disp g) (g_parallelize g) (g_init_data g) w_noise).

(** [len(range(n))] *)
Definition names (n : Z) : nat := Z.to_nat n.

Local Open Scope res_scope.

(** The initialiser of UMDAc and PBIL: a 2 by n array of means and deviations, or the bounds
    (umda_continuous.py:100-104, pbil.py:102-106). *)
Definition vector_or_bounds (n : Z) (vector : option (list (list f64))) (lo hi : bound) : res initr :=
  match vector with
  | Some [ms; ss] =>
      if Z.eqb (Z.of_nat (List.length ms)) n && Z.eqb (Z.of_nat (List.length ss)) n then Ok (IUniGauss (mkGI n ms ss))
      else Raise AssertionError
  | Some _ => Raise AssertionError
  | None => rmap IUniform (uniform_new n lo hi)
  end.

(** UMDAc (umda_continuous.py:56-106).  Simplification: a [vector] is a list of rows of equal
    length; with n_variables = 0 the two empty rows stand for themselves. *)
Definition umdac_new (g : args) (lo hi : bound) (vector : option (list (list f64))) (lower_factor : f64)
           (w_noise : option pynum) : res optimiser :=
  o <-? base g (g_alpha g) (g_elite_factor g) w_noise ;
  i <-? vector_or_bounds (g_nvars g) vector lo hi ;
  o <-? assign_init i o ;
  assign_pm (MUniGauss lower_factor (gauss_new (names (g_nvars g)))) o.

(** PBIL (pbil.py:55-108): the whole population is kept. *)
Definition pbil_new (g : args) (lo hi : bound) (vector : option (list (list f64))) (lower_factor : f64)
           (w_noise : option pynum) : res optimiser :=
  o <-? base g (PyI 1) (g_elite_factor g) w_noise ;
  i <-? vector_or_bounds (g_nvars g) vector lo hi ;
  o <-? assign_init i o ;
  assign_pm (MAdapt lower_factor (num_to_f (g_alpha g)) (gauss_new (names (g_nvars g)))) o.

(** UMDAd (umda_binary.py:49-93) *)
Definition umdad_new (g : args) (vector : option (list f64)) (lower upper : f64) : res optimiser :=
  o <-? base g (g_alpha g) (g_elite_factor g) (Some (PyI 0)) ;
  m <-? unibin_new (names (g_nvars g)) upper lower ;
  o <-? assign_pm (MUniBin m) o ;
  assign_init (IUniBin (unibin_init_new (g_nvars g)
    (match vector with None => repeat (lit 1 (-1)) (Z.to_nat (g_nvars g)) | Some v => v end))) o.

(** UMDAcat (umda_categorical.py:62-96) *)
Definition umdacat_new (g : args) (values : list (list cell)) (freq : list (list f64)) : res optimiser :=
  o <-? base g (g_alpha g) (g_elite_factor g) (Some (PyI (-1))) ;
  o <-? assign_pm (MUniCat (cat_new (names (g_nvars g)))) o ;
  i <-? cat_init_new (e_sum E) (g_nvars g) values freq ;
  assign_init (ICat i) o.

(** EBNA and BOA (ebna.py:68-102, boa.py:67-107); they differ in the score passed to the
    external learner, which is part of the environment. *)
Definition bn_new (g : args) (values : list (list cell)) (freq : list (list f64)) : res optimiser :=
  o <-? base g (g_alpha g) (g_elite_factor g) (Some (PyI (-1))) ;
  o <-? assign_pm (MExt KBN (names (g_nvars g)) (e_xnew E KBN (names (g_nvars g)))) o ;
  i <-? cat_init_new (e_sum E) (g_nvars g) values freq ;
  assign_init (ICat i) o.

(** UnivariateKEDA (univariate/keda.py:44-84) *)
Definition unikeda_new (g : args) (lo hi : bound) (w_noise : option pynum) : res optimiser :=
  o <-? base g (g_alpha g) (g_elite_factor g) w_noise ;
  u <-? uniform_new (g_nvars g) lo hi ;
  o <-? assign_init (IUniform u) o ;
  assign_pm (MExt KUniKDE (names (g_nvars g)) (e_xnew E KUniKDE (names (g_nvars g)))) o.

(** EGNA (egna.py:49-90) *)
Definition egna_new (g : args) (lo hi : bound) (w_noise : option pynum) : res optimiser :=
  o <-? base g (g_alpha g) (g_elite_factor g) w_noise ;
  o <-? assign_pm (MExt KGBN (names (g_nvars g)) (e_xnew E KGBN (names (g_nvars g)))) o ;
  u <-? uniform_new (g_nvars g) lo hi ;
  assign_init (IUniform u) o.

(** [np.zeros((n, n))] next to [np.empty(n)], which holds arbitrary doubles [z]. *)
Definition multigauss_new (z : list f64) : mgauss (T := f64) :=
  mkMG z (CovMat (repeat (repeat (Z2f 0) (List.length z)) (List.length z))).

(** EMNA (emna.py:48-91); [z] is the uninitialised vector of means. *)
Definition emna_new (g : args) (lo hi : bound) (lower_factor upper_factor : f64) (w_noise : option pynum) (z : nat -> f64) : res optimiser :=
  o <-? base g (g_alpha g) (g_elite_factor g) w_noise ;
  o <-? assign_pm (MMulti lower_factor upper_factor (multigauss_new (tabulate (names (g_nvars g)) z))) o ;
  u <-? uniform_new (g_nvars g) lo hi ;
  assign_init (IUniform u) o.

(** [l * int(size_gen * alpha)] *)
Definition times_int (l : pynum) (k : Z) : pynum :=
  match l with PyI z => PyI (z * k) | PyF x => PyF (fmul x (Z2f k)) end.

(** MultivariateKEDA and SPEDA (keda.py:46-117, speda.py:52-122): the elite is the selection,
    and the model is learned from an archive. *)
Definition archive_new (k : pm_class) (g : args) (lo hi : bound) (l : pynum) (w_noise : option pynum) : res optimiser :=
  o <-? base g (g_alpha g) (g_alpha g) w_noise ;
  o <-? assign_pm (MExt k (names (g_nvars g)) (e_xnew E k (names (g_nvars g)))) o ;
  t <-? int_times (g_size_gen g) (g_alpha g) ;
  (if (g_nvars g <? 0)%Z then Raise ValueError else                       (* np.empty((0, n)) *)
   let o := mkOpt (op_cfg o) (op_st o) (op_init o) (FromArchive (times_int l t)) (op_exp o) in
   u <-? uniform_new (g_nvars g) lo hi ;
   assign_init (IUniform u) o).

(** EDACustom (eda_custom.py:46-105).  Building the initialiser draws from the generator, and
    so does the generation sampled at the end.  [z]: see [emna_new]. *)
Definition custom_pm (n : Z) (pm : Z) (lo hi : pynum) (z : nat -> f64) : res model :=
  if Z.eqb pm 1 then Ok (MUniGauss (num_to_f lo) (gauss_new (names n)))
  else if Z.eqb pm 2 then rmap MUniBin (unibin_new (names n) (num_to_f hi) (num_to_f lo))
  else if Z.eqb pm 3 then Ok (MMulti (num_to_f lo) (num_to_f hi) (multigauss_new (tabulate (names n) z)))
  else if Z.eqb pm 4 then Ok (MExt KGBN (names n) (e_xnew E KGBN (names n)))
  else Raise ValueError.

(** An expression that draws nothing. *)
Definition lift_w {A} (r : res A) (w : W) : res A * W := (r, w).
(** The initialisers (eda_custom.py:93-102). *)
Definition custom_initr (n : Z) (init : Z) (lo hi : pynum) (w : W) : res initr * W :=
  if Z.eqb init 1 then
    let (r, w') := unigauss_init_new (e_rng E) n [] [] (num_to_f lo) (Z2f 100) w in (rmap IUniGauss r, w')
  else if Z.eqb init 2 then (Ok (IUniBin (unibin_init_new n [])), w)
  else if Z.eqb init 3 then
    let (r, w') := mgauss_init_new (e_rng E) n [] [] (num_to_f lo) (num_to_f hi) w in (rmap IMulti r, w')
  else if Z.eqb init 4 then (rmap IUniform (uniform_new n (BNum lo) (BNum hi)), w)
  else (Raise ValueError, w).

(** Arguments of [EDACustom] (eda_custom.py:46-57). *)
Record cargs := mkCArgs {
  k_size_gen : Z; k_max_iter : Z; k_dead_iter : Z; k_nvars : Z; k_alpha : pynum; k_elite_factor : pynum;
  k_disp : bool; k_pm : Z; k_init : Z; k_lo : pynum; k_hi : pynum
}.

(** [super().__init__(...)] with the defaults of EDA (eda_custom.py:76, eda.py:24-35). *)
Definition custom_base (k : cargs) : res optimiser :=
  rmap (fun c => mkOpt c (mkPS None (mkArr DFloat (Z.to_nat (k_nvars k)) [])) None FromSelection (WithBounds (k_lo k) (k_hi k)))
       (eda_init (k_size_gen k) (k_max_iter k) (k_dead_iter k) (k_nvars k) (k_alpha k) (k_elite_factor k)
                 (k_disp k) false None (Some (PyF (lit 1 (-1))))).

(** [EDACustom.__init__] (eda_custom.py:46-105). *)
Definition custom_new (k : cargs) (z : nat -> f64) (w : W) : res optimiser * W :=
  match rbind (custom_base k) (fun o => rbind (custom_pm (k_nvars k) (k_pm k) (k_lo k) (k_hi k) z) (fun m => assign_pm m o)) with
  | Raise e => (Raise e, w)
  | Ok o =>
      match custom_initr (k_nvars k) (k_init k) (k_lo k) (k_hi k) w with
      | (Raise e, w') => (Raise e, w')
      | (Ok i, w') =>
          match assign_init i o with
          | Raise e => (Raise e, w')
          | Ok o' =>
              let (r, w'') := initr_sample i (k_size_gen k) w' in                (* line 104 *)
              (rmap (fun _ => o') r, w'')
          end
      end
  end.

(** [read_settings] (eda_custom.py:129-152): the keyword arguments are evaluated in order. *)
Definition key (d : dict) (k : string) : res sval :=
  match dict_get k d with Some v => Ok v | None => Raise (KeyError k) end.
(** A setting used as an integer (eda_custom.py:141-149). *)
Definition get_int (d : dict) (k : string) : res Z :=
  v <-? key d k ; match v with SInt z => Ok z | _ => Raise TypeError end.
(** A setting used as a number (eda_custom.py:145-146). *)
Definition get_num (d : dict) (k : string) : res pynum :=
  v <-? key d k ; match v with SInt z => Ok (PyI z) | SNum p => Ok p | _ => Raise TypeError end.
(** A setting used as a boolean (eda_custom.py:147). *)
Definition get_bool (d : dict) (k : string) : res bool :=
  v <-? key d k ; match v with SBool b => Ok b | _ => Raise TypeError end.
(** A setting used as a pair of bounds (eda_custom.py:150). *)
Definition get_bounds (d : dict) (k : string) : res (pynum * pynum) :=
  v <-? key d k ; match v with SBounds lo hi => Ok (lo, hi) | _ => Raise TypeError end.

(** The keyword arguments (eda_custom.py:141-150). *)
Definition settings_args (d : dict) : res cargs :=
  size_gen <-? get_int d "size-gen" ;
  max_iter <-? get_int d "max_iter" ;
  dead_iter <-? get_int d "dead_iter" ;
  nvars <-? get_int d "n_variables" ;
  alpha <-? get_num d "alpha" ;
  elite_factor <-? get_num d "elite_factor" ;
  disp <-? get_bool d "disp" ;
  pm <-? get_int d "pm" ;
  init <-? get_int d "init" ;
  bounds <-? get_bounds d "bounds" ;
  Ok (mkCArgs size_gen max_iter dead_iter nvars alpha elite_factor disp pm init (fst bounds) (snd bounds)).
(** [read_settings] (eda_custom.py:129-152). *)
Definition read_settings (d : dict) (z : nat -> f64) (w : W) : res optimiser * W :=
  match settings_args d with
  | Ok k => custom_new k z w
  | Raise e => (Raise e, w)
  end.

End Stock.
Arguments model X : clear implicits.
Arguments value X : clear implicits.
Arguments pmstate X : clear implicits.
Arguments optimiser X : clear implicits.
Arguments env X W : clear implicits.
