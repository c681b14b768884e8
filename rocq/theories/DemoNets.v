(** A concrete library and network models, for the examples of Properties_Nets.v. *)
From Coq Require Import String List ZArith Bool Lia Reals Lra.
From Verif Require Import PyBase B64 NdArray Eda EdaInv Spec Models Gbn GbnSample Rand Stock StockAll Nets NetThms ModelProps Kde KdeRun Demo DemoModels DemoStock.
Import ListNotations.
Open Scope nat_scope.

(** Networks are numbers of learned rows; the library writes down the tables it sees and returns
    the columns in reverse order; [strict] makes the structure search fail. *)
Definition demo_lib (strict : bool) : @library (list table) nat arr := {|
  l_new := fun _ _ => 0;
  l_hc := fun _ t _ _ _ _ w => (if strict then Raise ValueError else Ok 1, w ++ [t]);
  l_fit := fun t x w => (Ok tt, (List.length (tb_rows t), w ++ [t]));
  l_order := fun _ => ["0"; "1"]%string;
  l_draw := fun x _ w => (Ok (mkTable DFloat ["1"; "0"]%string [[CF (Z2f 10); CF (Z2f (Z.of_nat x))]]), w);
  l_climb := fun t _ w => (if strict then Raise ValueError else Ok [("0", "1")%string], w ++ [t]);
  l_nodes := fun _ x => x;
  l_edge := fun _ x => (Ok tt, S x);
  l_arcs := fun _ => [];
  l_kde := fun d => if Nat.ltb (a_nc d) (a_len d) then Ok d else Raise ValueError;
  l_resample := fun k _ w => (Ok k, w)
|}.
Definition demo_net : netm nat := mkNetM (var_names 2) None None 5 None false.
Definition demo_rows : arr := mkArr DFloat 2 [[CF (Z2f 1); CF (Z2f 2)]; [CF (Z2f 3); CF (Z2f 5)]; [CF (Z2f 4); CF (Z2f 2)]].

Lemma demo_notes b : notes (demo_lib b) (fun w => w).
Proof.
  split; [|split]; cbn [demo_lib l_hc l_climb l_fit].
  - intros k t s wl bl f w r w' H. exact (eq_sym (f_equal snd H)).
  - intros t s w r w' H. exact (eq_sym (f_equal snd H)).
  - intros t x w r x' w' H. exact (eq_sym (f_equal (fun p => snd (snd p)) H)).
Qed.
Lemma demo_table : table_ok (mkTable DFloat ["1"; "0"]%string [[CF (Z2f 10); CF (Z2f 3)]]).
Proof.
  split; cbn [tb_cols tb_rows].
  - constructor; [intros [H|[]]; discriminate|]. constructor; [intros []|constructor].
  - constructor; [reflexivity|constructor].
Qed.

(** Networks are their lists of arcs.  The structure search starts from the white list and adds
    0 -> 1 and 1 -> 2 unless forbidden; adding an arc twice fails. *)
Definition arc_eqb (a b : arc) : bool := (String.eqb (fst a) (fst b) && String.eqb (snd a) (snd b))%bool.
Definition climbed (black : option (list arc)) : list arc :=
  filter (fun a => negb (existsb (arc_eqb a) (match black with Some l => l | None => [] end))) [("0", "1"); ("1", "2")]%string.
Definition list_lib : @library unit (list arc) unit := {|
  l_new := fun _ _ => [];
  l_hc := fun _ _ _ wl bl _ w =>
    let white := match wl with Some l => l | None => [] end in
    (if existsb (fun a => existsb (arc_eqb a) (match bl with Some l => l | None => [] end)) white then Raise ValueError
     else Ok (white ++ climbed bl), w);
  l_fit := fun _ x w => (Ok tt, (x, w));
  l_order := fun _ => [];
  l_draw := fun _ _ w => (Raise ValueError, w);
  l_climb := fun _ _ w => (Ok (climbed None), w);
  l_nodes := fun _ x => x;
  l_edge := fun a x => if existsb (arc_eqb a) x then (Raise ValueError, x) else (Ok tt, x ++ [a]);
  l_arcs := fun x => x;
  l_kde := fun _ => Raise ValueError;
  l_resample := fun _ _ w => (Raise ValueError, w)
|}.
Lemma arc_eqb_eq a b : arc_eqb a b = true <-> a = b.
Proof.
  unfold arc_eqb. rewrite andb_true_iff, !String.eqb_eq. destruct a as [a1 a2], b as [b1 b2]. cbn. split; [intros [-> ->]; reflexivity|intros H; injection H as -> ->; auto].
Qed.
Lemma list_lib_obeys : obeys list_lib.
Proof.
  intros k t s wl bl f w net w' H a. cbn [list_lib l_hc l_arcs] in *.
  set (black := match bl with Some l => l | None => [] end) in *. set (white := match wl with Some l => l | None => [] end) in *.
  assert (Hb : listed bl a -> existsb (arc_eqb a) black = true).
  { unfold listed, black. destruct bl as [l|]; [|contradiction]. intros Hin. apply existsb_exists. exists a. split; [exact Hin|apply arc_eqb_eq; reflexivity]. }
  destruct (existsb (fun a => existsb (arc_eqb a) black) white) eqn:Ew; [discriminate|].
  assert (En : net = white ++ climbed bl) by congruence. subst net. split.
  - unfold listed, white. destruct wl as [l|]; [|contradiction]. intros Hin. apply in_or_app. left. exact Hin.
  - intros Hl Hin. apply in_app_or in Hin as [Hin|Hin].
    + assert (existsb (fun a => existsb (arc_eqb a) black) white = true) by (apply existsb_exists; exists a; auto). congruence.
    + unfold climbed in Hin. apply filter_In in Hin as [_ Hin]. fold black in Hin. rewrite (Hb Hl) in Hin. discriminate.
Qed.
Lemma list_lib_shows : shows list_lib.
Proof.
  split; [|split; [|split]]; cbn [list_lib l_new l_nodes l_edge l_fit l_arcs].
  - intros k vs. reflexivity.
  - intros vs x. reflexivity.
  - intros a x x' H. destruct (existsb (arc_eqb a) x); [discriminate|]. congruence.
  - intros t x w r x' w' H. congruence.
Qed.

(** What a failed [learn] leaves behind. *)
Definition two_of_one : arr := mkArr DFloat 1 [[CF (Z2f 1)]; [CF (Z2f 3)]].
Lemma gauss_half_learned : exists e, fst (unigauss_learn (b64_ops seq_sum) (lit 1 (-1)) (num_col two_of_one) (gauss_new 2)) = Raise e /\
  snd (unigauss_learn (b64_ops seq_sum) (lit 1 (-1)) (num_col two_of_one) (gauss_new 2)) <> gauss_new 2.
Proof.
  exists IndexError. split; [vm_compute; reflexivity|]. intros H.
  apply (f_equal (fun l => feq (fst (nth 0 l (Z2f 0, Z2f 0))) (Z2f 0))) in H. revert H. vm_compute. discriminate.
Qed.
Lemma cat_half_learned : exists e, fst (cat_learn (mkArr DObj 1 [[CS "a"]]) (cat_new 2)) = Raise e /\
  snd (cat_learn (mkArr DObj 1 [[CS "a"]]) (cat_new 2)) <> cat_new 2.
Proof.
  exists IndexError. split; [vm_compute; reflexivity|]. intros H.
  apply (f_equal (fun t : cat_table => match t with None :: _ => true | _ => false end)) in H. revert H. vm_compute. discriminate.
Qed.
Lemma net_half_learned : exists e, fst (net_learn (demo_lib true) KSPBN 2 demo_rows demo_net []) = Raise e /\
  fst (snd (net_learn (demo_lib true) KSPBN 2 demo_rows demo_net [])) <> demo_net.
Proof. exists ValueError. split; [vm_compute; reflexivity|]. intros H. apply (f_equal nm_pm) in H. revert H. vm_compute. discriminate. Qed.

(** An environment whose kernel density estimator needs more rows than columns. *)
Definition strict_env : env nat unit :=
  mkEnv demo_rng seq_sum (fun _ => "0"%string) argsort_ref (mkPool 0 (fun i => i) (fun _ => 0)) (fun _ _ => 0)
        (fun _ d _ w => (if Nat.ltb (a_nc d) (a_len d) then Ok tt else Raise (UserExn 1), (a_len d, w))) demo_xsample.
Lemma strict_needs_rows : needs_rows strict_env.
Proof. intros d x w H. exists (UserExn 1). cbn [strict_env e_xlearn fst]. destruct (Nat.ltb_spec (a_nc d) (a_len d)); [lia|reflexivity]. Qed.

Definition demo_plane : arr := mkArr DInt 2 [[CI 0; CI 0]; [CI 1; CI 0]; [CI 0; CI 1]].
Lemma demo_plane_fits : kde_fits 2 (real_rows demo_plane).
Proof.
  apply kde_fits_iff; [lia|]. split; [cbn; lia|]. intros v (i & Hi & Hv).
  exists (nth (S i) (real_rows demo_plane) []), (nth 0 (real_rows demo_plane) []).
  destruct i as [|[|i]]; [| |lia]; (split; [cbn; tauto|]); (split; [cbn; tauto|]); unfold inner; cbn; lra.
Qed.

Lemma demo_plane_exact : exact_kde (demo_lib false) demo_plane.
Proof. unfold exact_kde. split; intros _; [exact demo_plane_fits|exists demo_plane; reflexivity]. Qed.
Lemma demo_one_exact : exact_kde (demo_lib false) two_of_one.
Proof.
  unfold exact_kde. split; intros _; [|exists two_of_one; reflexivity]. apply kde_one.
  exists [real_cell (CF (Z2f 1))], [real_cell (CF (Z2f 3))]. split; [left; reflexivity|]. split; [right; left; reflexivity|].
  cbn [nth real_cell]. rewrite !(fun z H => proj1 (Z2f_exact z H)) by (vm_compute; discriminate). lra.
Qed.
Definition demo_bits_rows : arr := mkArr DInt 2 [[CI 1; CI 0]; [CI 0; CI 1]].
Lemma demo_few_exact : exact_kde (demo_lib false) demo_bits_rows.
Proof.
  unfold exact_kde. split; [intros (x & H); discriminate H|]. intros H. exfalso. revert H. apply kde_few_rows. cbn. lia.
Qed.

Lemma gauss_half_learned' : exists lower d pm e,
  fst (unigauss_learn (b64_ops seq_sum) lower (num_col d) pm) = Raise e /\
  snd (unigauss_learn (b64_ops seq_sum) lower (num_col d) pm) <> pm.
Proof. exists (lit 1 (-1)), two_of_one, (gauss_new 2). exact gauss_half_learned. Qed.
Lemma cat_half_learned' : exists d t e, fst (cat_learn d t) = Raise e /\ snd (cat_learn d t) <> t.
Proof. exists (mkArr DObj 1 [[CS "a"]]), (cat_new 2). exact cat_half_learned. Qed.
Lemma net_half_learned' : exists (L : library (list table) nat arr) k folds d (m : netm nat) w e,
  a_nc d = List.length (nm_vars m) /\
  fst (net_learn L k folds d m w) = Raise e /\ nm_pm (fst (snd (net_learn L k folds d m w))) <> nm_pm m.
Proof.
  exists (demo_lib true), KSPBN, 2%Z, demo_rows, demo_net, [], ValueError. split; [reflexivity|]. split; [vm_compute; reflexivity|].
  vm_compute. discriminate.
Qed.
Definition is_float (x : f64) (c : cell) : bool := match c with CF y => feq x y | _ => false end.
Definition are_floats (xs : list f64) (r : row) : bool :=
  Nat.eqb (List.length xs) (List.length r) && forallb (fun p => is_float (fst p) (snd p)) (combine xs r).
