(** Properties of the network models as wrappers of the libraries, of the kernel density model,
    and of failed learning. *)
From Coq Require Import String List ZArith Bool Lia Reals Permutation.
From Verif Require Import PyBase B64 NdArray Eda Models Gbn GbnSample Rand Stock StockInv StockPrior StockAll Nets NetThms ModelProps Kde KdeRun Demo DemoModels DemoStock DemoNets.
Import ListNotations.
Open Scope nat_scope.

(* ------------------------------ C37 ------------------------------ *)
Theorem C37_networks : forall {W Net K} (L : @library W Net K) d w (m1 m2 : netm Net),
  same_model m1 m2 ->
  forgets (fun s => gbn_learn L d (fst s) w) (m1, w) (m2, w) /\
  (nm_top m1 = nm_top m2 -> nm_fitted m1 = nm_fitted m2 ->
     (forall k folds, forgets (fun s => net_learn L k folds d (fst s) w) (m1, w) (m2, w)) /\
     (forall score, forgets (fun s => bn_learn L score d (fst s) w) (m1, w) (m2, w))) /\
  (forall k1 k2, forgets (kde_learn L d) k1 k2).
Proof. exact @networks_forget. Qed.
Print Assumptions C37_networks.

Example C37_networks_met : same_model demo_net (with_net demo_net 9) /\
  fst (gbn_learn (demo_lib false) demo_rows demo_net []) = Ok tt /\
  nm_pm (fst (snd (gbn_learn (demo_lib false) demo_rows demo_net []))) = 3.
Proof. split; [repeat split|]. split; vm_compute; reflexivity. Qed.

(* ------------------------------ C80 ------------------------------ *)
Theorem C80_sampled : forall {W Net K} (L : @library W Net K) (m : netm Net) size w t w',
  l_draw L (nm_pm m) size w = (Ok t, w') -> table_ok t ->
  (incl (nm_vars m) (tb_cols t) ->
     exists a, net_sample L m size w = (Ok a, w') /\ a_nc a = List.length (nm_vars m) /\
       List.length (a_rows a) = List.length (tb_rows t) /\ Forall (fun r => List.length r = List.length (nm_vars m)) (a_rows a) /\
       forall i j v c, nth_error (nm_vars m) j = Some v ->
         ((exists r, nth_error (a_rows a) i = Some r /\ nth_error r j = Some c) <-> value_at t i v c)) /\
  (~ incl (nm_vars m) (tb_cols t) ->
     exists v, In v (nm_vars m) /\ ~ In v (tb_cols t) /\ net_sample L m size w = (Raise (KeyError v), w')).
Proof. exact @sample_labels. Qed.
Print Assumptions C80_sampled.

Theorem C80_order : forall {W Net K} (L L' : @library W Net K) (m m' : netm Net) size w w' w1 w1' t t',
  nm_vars m = nm_vars m' -> l_draw L (nm_pm m) size w = (Ok t, w1) -> l_draw L' (nm_pm m') size w' = (Ok t', w1') ->
  table_ok t -> table_ok t' -> tb_dt t = tb_dt t' -> Permutation (tb_cols t) (tb_cols t') ->
  List.length (tb_rows t) = List.length (tb_rows t') -> (forall i v c, value_at t i v c <-> value_at t' i v c) -> incl (nm_vars m) (tb_cols t) ->
  fst (net_sample L m size w) = fst (net_sample L' m' size w').
Proof. exact @sample_order. Qed.
Print Assumptions C80_order.

(** The names the stock algorithms use are different from each other. *)
Theorem C80_names : forall n, NoDup (var_names n) /\ List.length (var_names n) = n.
Proof. exact var_names_ok. Qed.
Print Assumptions C80_names.

Example C80_met : let m := with_net demo_net 3 in
  l_draw (demo_lib false) (nm_pm m) 1 [] = (Ok (mkTable DFloat ["1"; "0"]%string [[CF (Z2f 10); CF (Z2f 3)]]), []) /\
  table_ok (mkTable DFloat ["1"; "0"]%string [[CF (Z2f 10); CF (Z2f 3)]]) /\ incl (nm_vars m) ["1"; "0"]%string /\
  match net_sample (demo_lib false) m 1 [] with (Ok a, _) => are_floats [Z2f 3; Z2f 10] (concat (a_rows a)) | _ => false end = true.
Proof.
  cbv zeta. split; [reflexivity|]. split; [exact demo_table|]. split; [|vm_compute; reflexivity].
  intros x [<-|[<-|[]]]; [right; left; reflexivity|left; reflexivity].
Qed.

(* ------------------------------ C81 ------------------------------ *)
(** Every table the library sees during [learn] shows the data set column by column under the
    variables' names. *)
Theorem C81_gbn : forall {W Net K} (L : @library W Net K) log d (m : netm Net) w r m' w',
  notes L log -> NoDup (nm_vars m) -> Forall (fun r => List.length r = a_nc d) (a_rows d) ->
  gbn_learn L d m w = (r, (m', w')) ->
  exists ts, log w' = log w ++ ts /\ Forall (labelled (nm_vars m) d) ts /\
    (a_nc d = List.length (nm_vars m) -> ts <> []) /\ (a_nc d <> List.length (nm_vars m) -> r = Raise ValueError /\ m' = m /\ w' = w).
Proof. exact @gbn_learn_tables. Qed.
Print Assumptions C81_gbn.

Theorem C81_spbn_kdebn : forall {W Net K} (L : @library W Net K) log k folds d (m : netm Net) w r m' w',
  notes L log -> NoDup (nm_vars m) -> Forall (fun r => List.length r = a_nc d) (a_rows d) ->
  net_learn L k folds d m w = (r, (m', w')) ->
  exists ts, log w' = log w ++ ts /\ Forall (labelled (nm_vars m) d) ts /\
    (a_nc d = List.length (nm_vars m) -> ts <> []) /\ (a_nc d <> List.length (nm_vars m) -> r = Raise ValueError /\ m' = m /\ w' = w).
Proof. exact @net_learn_tables. Qed.
Print Assumptions C81_spbn_kdebn.

Theorem C81_bn : forall {W Net K} (L : @library W Net K) log score d (m : netm Net) w r m' w',
  notes L log -> NoDup (nm_vars m) -> Forall (fun r => List.length r = a_nc d) (a_rows d) ->
  bn_learn L score d m w = (r, (m', w')) ->
  exists ts, log w' = log w ++ ts /\ Forall (labelled (nm_vars m) d) ts /\
    (a_nc d = List.length (nm_vars m) -> ts <> []) /\ (a_nc d <> List.length (nm_vars m) -> r = Raise ValueError /\ m' = m /\ w' = w).
Proof. exact @bn_learn_tables. Qed.
Print Assumptions C81_bn.

(** A library that samples the table it was given returns the data set unchanged. *)
Theorem C81_round_trip : forall {W Net K} (L : @library W Net K) (m : netm Net) d t size w w',
  NoDup (nm_vars m) -> Forall (fun r => List.length r = a_nc d) (a_rows d) -> labelled (nm_vars m) d t -> tb_dt t = a_dt d ->
  a_nc d = List.length (nm_vars m) -> l_draw L (nm_pm m) size w = (Ok t, w') ->
  net_sample L m size w = (Ok d, w').
Proof. exact @resampled. Qed.
Print Assumptions C81_round_trip.

Example C81_met : notes (demo_lib false) (fun w => w) /\ NoDup (nm_vars demo_net) /\
  Forall (fun r : row => List.length r = a_nc demo_rows) (a_rows demo_rows) /\ a_nc demo_rows = List.length (nm_vars demo_net) /\
  map tb_cols (snd (snd (bn_learn (demo_lib false) "k2score" demo_rows demo_net []))) = [["0"; "1"]; ["0"; "1"]]%string.
Proof.
  split; [apply demo_notes|]. split; [apply var_names_ok|]. split; [apply Forall_forall; intros r [<-|[<-|[<-|[]]]]; reflexivity|].
  split; vm_compute; reflexivity.
Qed.

(* ------------------------------ C82 ------------------------------ *)
(** Missing from the full statement: a data set with too few columns for UniGauss, AdaptUniGauss
    and UniCategorical ([C82_gaussian_refuted], [C82_categorical_refuted]) and a structure search
    that raises ([C82_network_refuted]). *)
Theorem C82_partial : forall d,
  (forall m e, fst (unibin_learn d m) = Raise e -> snd (unibin_learn d m) = m) /\
  (forall W Net K (L : @library W Net K) k e, fst (kde_learn L d k) = Raise e -> snd (kde_learn L d k) = k) /\
  (forall W Net K (L : @library W Net K) k folds score (m : netm Net) w, a_nc d <> List.length (nm_vars m) ->
     net_learn L k folds d m w = (Raise ValueError, (m, w)) /\ gbn_learn L d m w = (Raise ValueError, (m, w)) /\
     bn_learn L score d m w = (Raise ValueError, (m, w))).
Proof. exact failures_keep. Qed.
Print Assumptions C82_partial.

Example C82_met : fst (unibin_learn (mkArr DInt 2 []) demo_unibin) = Raise ZeroDivisionError /\
  fst (kde_learn (demo_lib false) (mkArr DFloat 2 []) None) = Raise ValueError /\ a_nc two_of_one <> List.length (nm_vars demo_net).
Proof. split; [vm_compute; reflexivity|]. split; [vm_compute; reflexivity|discriminate]. Qed.

Theorem C82_gaussian_refuted : exists lower d pm e,
  fst (unigauss_learn (b64_ops seq_sum) lower (num_col d) pm) = Raise e /\
  snd (unigauss_learn (b64_ops seq_sum) lower (num_col d) pm) <> pm.
Proof. exact gauss_half_learned'. Qed.
Print Assumptions C82_gaussian_refuted.

Theorem C82_categorical_refuted : exists d t e, fst (cat_learn d t) = Raise e /\ snd (cat_learn d t) <> t.
Proof. exact cat_half_learned'. Qed.
Print Assumptions C82_categorical_refuted.

Theorem C82_network_refuted : exists (L : library (list table) nat arr) k folds d (m : netm nat) w e,
  a_nc d = List.length (nm_vars m) /\
  fst (net_learn L k folds d m w) = Raise e /\ nm_pm (fst (snd (net_learn L k folds d m w))) <> nm_pm m.
Proof. exact net_half_learned'. Qed.
Print Assumptions C82_network_refuted.

(** What is left behind: the variables before the failing one are learned, it and the later ones
    are as they were. *)
Theorem C82_exactly : forall (T : Type) (o : ops T) lower alpha col (pm : list (T * T)) e pm',
  (unigauss_learn o lower col pm = (Raise e, pm') -> half_learned (unigauss_learn o lower col) pm e pm') /\
  (adapt_learn o lower alpha col pm = (Raise e, pm') -> half_learned (adapt_learn o lower alpha col) pm e pm').
Proof. exact gaussian_left. Qed.
Print Assumptions C82_exactly.

Theorem C82_categorical_exactly : forall d t e t', cat_learn d t = (Raise e, t') -> half_learned (cat_learn d) t e t'.
Proof. exact cat_left. Qed.
Print Assumptions C82_categorical_exactly.

(* ------------------------------ C83 ------------------------------ *)
(** Missing from the full statement: more than one variable ([C83_refuted]). *)
Theorem C83_partial : forall {W Net K} (L : @library W Net K) d k, exact_kde L d -> a_nc d = 1 ->
  (fst (kde_learn L d k) = Ok tt <-> exists r1 r2, In r1 (real_rows d) /\ In r2 (real_rows d) /\ nth 0 r1 0%R <> nth 0 r2 0%R).
Proof. exact @unikde_one. Qed.
Print Assumptions C83_partial.

Theorem C83_refuted : exists d, (forall i, i < a_nc d -> kde_fits 1 (real_rows (column_alone i d))) /\
  forall W Net K (L : @library W Net K) k, exact_kde L d -> exists e, fst (kde_learn L d k) = Raise e.
Proof. exact unikde_joint. Qed.
Print Assumptions C83_refuted.

(** Exactly the data sets on which no linear combination of the variables is constant. *)
Theorem C83_exactly : forall {W Net K} (L : @library W Net K) d k, exact_kde L d -> 0 < a_nc d ->
  (fst (kde_learn L d k) = Ok tt <-> 2 <= a_len d /\
     forall v : nat -> R, (exists i, i < a_nc d /\ v i <> 0%R) ->
       exists r1 r2, In r1 (real_rows d) /\ In r2 (real_rows d) /\ inner (a_nc d) v r1 <> inner (a_nc d) v r2).
Proof. exact @unikde_learns. Qed.
Print Assumptions C83_exactly.

(** In particular never with no more rows than variables. *)
Theorem C83_few_rows : forall {W Net K} (L : @library W Net K) d k, exact_kde L d -> a_len d <= a_nc d ->
  exists e, fst (kde_learn L d k) = Raise e.
Proof. exact @unikde_few. Qed.
Print Assumptions C83_few_rows.

Example C83_met : exact_kde (demo_lib false) demo_plane /\ fst (kde_learn (demo_lib false) demo_plane None) = Ok tt.
Proof. split; [exact demo_plane_exact|reflexivity]. Qed.
Example C83_met_one : exact_kde (demo_lib false) two_of_one /\ a_nc two_of_one = 1 /\ fst (kde_learn (demo_lib false) two_of_one None) = Ok tt.
Proof. split; [exact demo_one_exact|]. split; reflexivity. Qed.
Example C83_met_few : exact_kde (demo_lib false) demo_bits_rows /\ a_len demo_bits_rows <= a_nc demo_bits_rows.
Proof. split; [exact demo_few_exact|cbn; lia]. Qed.

(* ------------------------------ C84 ------------------------------ *)
Theorem C84_few_rows : forall {X W} (E : env X W) g lo hi wn (o0 o : optimiser X) t cost a ftol out w r s,
  needs_rows E -> construct E (UnivariateKEDA lo hi wn) g = Ok o0 -> used E o0 o ->
  int_times (g_size_gen g) (g_alpha g) = Ok t -> (0 <= t <= g_nvars g)%Z ->
  run_in E a o cost ftol out w = (Ok r, s) -> (g_max_iter g <= 1)%Z.
Proof. exact @keda_few_fails. Qed.
Print Assumptions C84_few_rows.

Example C84_met : needs_rows strict_env /\ int_times (g_size_gen (demo_args 3 2 None)) (g_alpha (demo_args 3 2 None)) = Ok 2%Z /\
  exists o s, construct strict_env (UnivariateKEDA (num 0) (num 1) None) (demo_args 3 2 None) = Ok o /\
    run strict_env o cost0 ftol_default false tt = (Raise (UserExn 1), s).
Proof. split; [exact strict_needs_rows|]. split; [vm_compute; reflexivity|]. apply raised_ok. vm_compute. reflexivity. Qed.

(* ------------------------------ C44 ------------------------------ *)
(** Whatever was learned before, successfully or not. *)
Theorem C44_learned : forall {W Net K} (L : @library W Net K) k vs white black (m : netm Net) folds d w m' w',
  obeys L -> shows L -> relearned L k (net_new L k vs white black) m -> learn_call L k folds d m w = (Ok tt, (m', w')) ->
  forall a, (listed white a -> In a (net_structure L m')) /\ (listed black a -> ~ In a (net_structure L m')).
Proof. exact @learned_lists. Qed.
Print Assumptions C44_learned.

Example C44_learned_met : obeys list_lib /\ shows list_lib /\
  let m0 := net_new list_lib KSPBN (var_names 3) (Some [("2", "0")%string]) (Some [("0", "1")%string]) in
  exists m1 m2, learn_call list_lib KSPBN 10 demo_rows m0 tt = (Raise ValueError, (m1, tt)) /\
    learn_call list_lib KSPBN 10 (mkArr DFloat 3 [[CF (Z2f 1); CF (Z2f 2); CF (Z2f 3)]]) m1 tt = (Ok tt, (m2, tt)) /\
    net_structure list_lib m2 = [("2", "0"); ("1", "2")]%string.
Proof. split; [exact list_lib_obeys|]. split; [exact list_lib_shows|]. eexists _, _. split; [reflexivity|]. split; reflexivity. Qed.

(* ------------------------------ C99 ------------------------------ *)
(** GBN, SPBN and KDEBN. *)
Theorem C99_structure : forall {W Net K} (L : @library W Net K) k vs white black (m : netm Net) folds d w r m' w',
  shows L -> relearned L k (net_new L k vs white black) m -> learn_call L k folds d m w = (r, (m', w')) ->
  net_structure L (net_new L k vs white black) = [] /\
  (a_nc d <> List.length vs -> r = Raise ValueError /\ net_structure L m' = net_structure L m) /\
  (a_nc d = List.length vs -> exists start folds' wl bl r1 w1,
     l_hc L k (mkTable (a_dt d) vs (a_rows d)) start wl bl folds' w = (r1, w1) /\
     (forall x, start = Some x -> x = l_new L k vs) /\
     match r1 with Ok net => net_structure L m' = l_arcs L net | Raise e => r = Raise e /\ net_structure L m' = [] end).
Proof. exact @learned_structure. Qed.
Print Assumptions C99_structure.

(** BN: the arcs its search found, in the order it found them. *)
Theorem C99_bn : forall {W Net K} (L : @library W Net K) score d (m : netm Net) w m' w',
  shows L -> bn_learn L score d m w = (Ok tt, (m', w')) ->
  exists t es w1, to_table (nm_vars m) d = Ok t /\ l_climb L t score w = (Ok es, w1) /\ net_structure L m' = es.
Proof. exact @bn_learn_structure. Qed.
Print Assumptions C99_bn.

Example C99_met : shows list_lib /\
  let m0 := net_new list_lib KBN (var_names 2) None None in
  exists m1, bn_learn list_lib "bicscore" demo_rows m0 tt = (Ok tt, (m1, tt)) /\ net_structure list_lib m1 = [("0", "1"); ("1", "2")]%string.
Proof. split; [exact list_lib_shows|]. eexists. split; reflexivity. Qed.
