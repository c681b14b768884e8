(** Concrete Gaussian networks. *)
From Coq Require Import String List ZArith Bool Lia Reals Lra.
From Verif Require Import PyBase B64 Models Gbn GbnSpec GbnThms GbnSigma GbnInfer GbnSample GbnExist Demo.
Import ListNotations.
Open Scope R_scope.
Local Open Scope string_scope.

(** b = 2 + 3 a + noise *)
Definition tree : network R := mkNet ["a"; "b"]
  (fun v => if String.eqb v "a" then mkCpd [] [1] 1 else mkCpd ["a"] [2; 3] 1).
(** b = a + noise, c = a + b + noise *)
Definition triangle : network R := mkNet ["a"; "b"; "c"]
  (fun v => if String.eqb v "a" then mkCpd [] [0] 1 else if String.eqb v "b" then mkCpd ["a"] [0; 1] 1 else mkCpd ["a"; "b"] [0; 1; 1] 1).

Lemma tree_dag : dag tree.
Proof.
  split; [repeat constructor; cbn; intuition discriminate|]. intros [|[|i]] v H; [| |destruct i; discriminate];
    assert (E : v = _) by (symmetry; injection H as H; exact H); subst v; cbn; (split; [reflexivity|apply Forall_forall; intros p; cbn; tauto]).
Qed.
Lemma triangle_dag : dag triangle.
Proof.
  split; [repeat constructor; cbn; intuition discriminate|]. intros [|[|[|i]]] v H; [| | |destruct i; discriminate];
    assert (E : v = _) by (symmetry; injection H as H; exact H); subst v; cbn; (split; [reflexivity|apply Forall_forall; intros p; cbn; tauto]).
Qed.
Lemma tree_var v : In v (n_order tree) -> 0 <= d_var (n_cpd tree v).
Proof. intros _. cbn. destruct (String.eqb v "a"); cbn; lra. Qed.
Lemma triangle_var v : In v (n_order triangle) -> 0 <= d_var (n_cpd triangle v).
Proof. intros _. cbn. destruct (String.eqb v "a"); [cbn; lra|]. destruct (String.eqb v "b"); cbn; lra. Qed.
Lemma tree_no_diamond : no_diamond tree.
Proof.
  intros v [<-|[<-|[]]]; cbn; (split; [repeat constructor; cbn; auto|]).
  - intros p q [].
  - intros p q [<-|[]] [<-|[]] H; congruence.
Qed.

Lemma tree_solved : solves (coin_space 2) tree (solution tree) (noise tree).
Proof. exact (solution_solves tree tree_dag tree_var). Qed.
Lemma triangle_solved : solves (coin_space 3) triangle (solution triangle) (noise triangle).
Proof. exact (solution_solves triangle triangle_dag triangle_var). Qed.

Lemma triangle_crossed {O} (P : probability O) X eps : solves P triangle X eps -> crossed P triangle X "c" = 2.
Proof.
  intros HS. assert (Va : cov P (X "a") (X "a") = 1).
  { rewrite (var_step P triangle X eps triangle_dag HS 0 "a" eq_refl). cbn. lra. }
  assert (Cab : cov P (X "a") (X "b") = 1).
  { rewrite (cov_step P triangle X eps triangle_dag HS 0 1 "a" "b" ltac:(lia) eq_refl eq_refl). cbn. lra. }
  unfold crossed, cross. cbn. rewrite (cov_sym P (X "b") (X "a")), Cab, Va. unfold sq. lra.
Qed.

Lemma triangle_wrong tol : 0 < tol -> dag triangle /\ (exists O (P : probability O) X eps, solves P triangle X eps) /\
  forall O (P : probability O) X eps, solves P triangle X eps ->
    get_sigma R_ops tol triangle [] <> Ok (map (fun v => map (fun u => cov P (X v) (X u)) (n_order triangle)) (n_order triangle)).
Proof.
  intros Ht. split; [exact triangle_dag|]. split.
  - exists (list bool), (coin_space 3), (solution triangle), (noise triangle). exact triangle_solved.
  - intros O P X eps HS H. pose proof (proj1 (get_sigma_iff P triangle X eps tol triangle_dag HS Ht) H "c" ltac:(cbn; auto)) as HC.
    rewrite (triangle_crossed P X eps HS) in HC. lra.
Qed.

(** the pseudo-inverse of a 1 x 1 matrix *)
Definition pinv1 (m : list (list R)) : res (list (list R)) := match m with [[x]] => Ok [[/ x]] | _ => Raise LinAlgError end.
Lemma tree_evidence : let C := fun p q => cov (coin_space 2) (solution tree p) (solution tree q) in
  exists G, pinv1 (tab C ["b"] ["b"]) = Ok G /\ gen_inverse 1 (tab C ["b"] ["b"]) G.
Proof.
  intros C. assert (V : C "b" "b" = 10).
  { unfold C. rewrite (var_step _ tree _ _ tree_dag tree_solved 1 "b" eq_refl). cbn -[cov].
    rewrite (var_step _ tree _ _ tree_dag tree_solved 0 "a" eq_refl). cbn. lra. }
  unfold tab. cbn [map]. rewrite V. eexists. split; [reflexivity|]. split; [reflexivity|]. split; [repeat constructor|].
  unfold matmul. cbn. f_equal. f_equal. field.
Qed.

(** ** Doubles *)
Definition huge : network f64 := mkNet ["a"; "b"]
  (fun v => if String.eqb v "a" then mkCpd [] [Z2f 0] (lit 1 1000) else mkCpd ["a"] [Z2f 0; lit 1 20] (Z2f 1)).
Lemma huge_dag : dag huge.
Proof.
  split; [repeat constructor; cbn; intuition discriminate|]. intros [|[|i]] v H; [| |destruct i; discriminate];
    (assert (E : v = nth 0 ["a"] "" \/ v = "b") by (apply nth_error_In in H; destruct H as [<-|[<-|[]]]; auto));
    [assert (v = "a") by (cbn in H; congruence)|assert (v = "b") by (cbn in H; congruence)]; subst v;
    cbn [n_cpd huge String.eqb Ascii.eqb Bool.eqb d_beta d_parents length]; (split; [reflexivity|apply Forall_forall; intros p; cbn; tauto]).
Qed.

(** three independent variables with means 1 (a), 2 (b), 0 (c), sorted b, a, c by the library *)
Definition roots : network f64 := mkNet ["b"; "a"; "c"]
  (fun v => mkCpd [] [if String.eqb v "a" then Z2f 1 else if String.eqb v "b" then Z2f 2 else Z2f 0] (Z2f 1)).
Definition pinv64 (m : list (list f64)) : res (list (list f64)) := match m with [[x]] => Ok [[fdiv (Z2f 1) x]] | _ => Raise LinAlgError end.
(** a draw that happens to be the mean *)
Definition draw_mean (mu : list f64) (_ : list (list f64)) : res (list (list f64)) := Ok (map (fun x => [x]) mu).
Definition one_bucket : set_order := by_hash (fun _ => 0%nat).
Definition get {A} (d : A) (r : res A) : A := match r with Ok a => a | Raise _ => d end.
Lemma get_ok {A} (d : A) r : is_ok r = true -> r = Ok (get d r). Proof. destruct r; [reflexivity|discriminate]. Qed.

Lemma mislabelled : let o := b64_ops seq_sum in let vars := ["a"; "b"; "c"] in let ev := [("c", Z2f 0)] in
  ord_ok one_bucket /\ (forall x, In x vars <-> In x (n_order roots)) /\
  exists out mu S cols k v j,
    sample_evidence o (dec 1 8) one_bucket pinv64 draw_mean 1 vars ev roots = Ok out /\
    inference o (dec 1 8) one_bucket pinv64 roots (map snd ev) (map fst ev) = Ok (mu, S) /\ draw_mean mu S = Ok cols /\
    nth_error (set_minus one_bucket (n_order roots) (map fst ev)) k = Some v /\ nth_error vars j = Some v /\
    nth_error out j <> nth_error cols k.
Proof.
  intros o vars ev. split; [apply by_hash_ok|]. split; [intros x; cbn; tauto|].
  set (r1 := sample_evidence o (dec 1 8) one_bucket pinv64 draw_mean 1 vars ev roots).
  set (r2 := inference o (dec 1 8) one_bucket pinv64 roots (map snd ev) (map fst ev)).
  exists (get [] r1), (fst (get ([], []) r2)), (snd (get ([], []) r2)), (map (fun x => [x]) (fst (get ([], []) r2))), 1%nat, "a", 0%nat.
  split; [apply get_ok; vm_compute; reflexivity|]. split; [rewrite <- surjective_pairing; apply get_ok; vm_compute; reflexivity|].
  split; [reflexivity|]. split; [reflexivity|]. split; [reflexivity|].
  intros H. apply (f_equal (fun c => match c with Some [x] => feq x (Z2f 2) | _ => false end)) in H. vm_compute in H. discriminate.
Qed.

(** ** The triangle, computed *)
Lemma triangle_sigma : all_sigma R_ops triangle = Ok [[1; 1; 2]; [1; 2; 3]; [2; 3; 4]].
Proof. cbn. unfold zero, mset, mget, vget. cbn. repeat (f_equal; try ring). Qed.

Lemma triangle_get_sigma tol vars idx : 0 < tol -> vars <> [] -> positions triangle vars = Ok idx ->
  get_sigma R_ops tol triangle vars = Ok (map (fun i => map (fun j => mg i j [[1; 1; 2]; [1; 2; 3]; [2; 3; 4]]) idx) idx).
Proof.
  intros Ht Hn Hp. unfold get_sigma. rewrite triangle_sigma. cbn [rbind]. rewrite (check_exact triangle tol _ Ht).
  - destruct vars; [contradiction|]. rewrite Hp. reflexivity.
  - intros [|[|[|a]]] [|[|[|b]]] Ha Hb; cbn in Ha, Hb; try lia; reflexivity.
Qed.

Lemma triangle_inference tol : 0 < tol -> forall e, length e = 1%nat ->
  inference R_ops tol one_bucket pinv1 triangle e ["c"] = Ok ([nth 0 e 0 / 2; nth 0 e 0 * 3 / 4], [[0; -1/2]; [-1/2; -1/4]]).
Proof.
  intros Ht [|x [|y e]] He; try discriminate. unfold inference. change (set_minus one_bucket (n_order triangle) ["c"]) with ["a"; "b"].
  cbn [app length]. rewrite (triangle_get_sigma tol ["a"; "b"; "c"] [0; 1; 2]%nat Ht) by (try discriminate; reflexivity).
  cbn. unfold mg, mget, vget. cbn. f_equal. f_equal; repeat (f_equal; try field).
Qed.

Lemma triangle_moments {O} (P : probability O) X eps : solves P triangle X eps -> cov P (X "a") (X "c") = 2 /\ cov P (X "c") (X "c") = 6 /\ L2 P (X "a") /\ L2 P (X "c").
Proof.
  intros HS. assert (Va : cov P (X "a") (X "a") = 1).
  { rewrite (var_step P triangle X eps triangle_dag HS 0 "a" eq_refl). cbn. lra. }
  assert (Cab : cov P (X "a") (X "b") = 1).
  { rewrite (cov_step P triangle X eps triangle_dag HS 0 1 "a" "b" ltac:(lia) eq_refl eq_refl). cbn. lra. }
  assert (Vb : cov P (X "b") (X "b") = 2).
  { rewrite (var_step P triangle X eps triangle_dag HS 1 "b" eq_refl). cbn. rewrite Va. lra. }
  split; [rewrite (cov_step P triangle X eps triangle_dag HS 0 2 "a" "c" ltac:(lia) eq_refl eq_refl); cbn; rewrite Va, Cab; lra|].
  split; [rewrite (var_step P triangle X eps triangle_dag HS 2 "c" eq_refl); cbn; rewrite (cov_sym P (X "b") (X "a")), Va, Cab, Vb; lra|].
  split; [exact (node_L2 P triangle X eps triangle_dag HS 0 "a" eq_refl)|exact (node_L2 P triangle X eps triangle_dag HS 2 "c" eq_refl)].
Qed.

Lemma triangle_inference_wrong tol : 0 < tol -> forall O (P : probability O) X eps, solves P triangle X eps ->
  ~ exists m S, (forall e, length e = 1%nat -> inference R_ops tol one_bucket pinv1 triangle e ["c"] = Ok (m e, S)) /\
      conditional P X ["c"] (set_minus one_bucket (n_order triangle) ["c"]) m S.
Proof.
  intros Ht O P X eps HS (m & S & HI & _ & _ & HR & _). destruct (triangle_moments P X eps HS) as (Cac & Vc & La & Lc).
  destruct (HR 0%nat "a" eq_refl) as (_ & _ & H0). specialize (H0 "c" (or_introl eq_refl)).
  assert (E : (fun w => X "a" w - nth 0 (m (map (fun u => X u w) ["c"])) 0) = (fun w => X "a" w - (fun w => (/ 2) * X "c" w) w)).
  { apply FunctionalExtensionality.functional_extensionality. intros w. cbn [map]. pose proof (HI [X "c" w] eq_refl) as HE.
    rewrite (triangle_inference tol Ht [X "c" w] eq_refl) in HE. assert (Em : m [X "c" w] = [nth 0 [X "c" w] 0 / 2; nth 0 [X "c" w] 0 * 3 / 4]) by congruence.
    rewrite Em. cbn [nth]. field. }
  rewrite E in H0. rewrite (cov_sub P (X "a") (fun w => / 2 * X "c" w)) in H0; [|exact La|apply L2_scal; exact Lc|exact Lc].
  rewrite (cov_scal P (X "c") (X "c") (/ 2) Lc Lc) in H0. rewrite Cac, Vc in H0. lra.
Qed.

(** ** A structure learner that respects its lists *)
Definition arc_dec (a b : arc) : {a = b} + {a <> b}.
Proof. destruct a as [a1 a2], b as [b1 b2]. destruct (string_dec a1 b1) as [->|n]; [|right; congruence]. destruct (string_dec a2 b2) as [->|n]; [left; reflexivity|right; congruence]. Defined.
Definition demo_hc (w b : option (list arc)) : res (list arc) :=
  let ws := match w with Some l => l | None => [] end in let bs := match b with Some l => l | None => [] end in
  if existsb (fun a => if in_dec arc_dec a bs then true else false) ws then Raise ValueError
  else Ok (ws ++ filter (fun a => if in_dec arc_dec a bs then false else true) [("a", "b"); ("b", "c")])%list.
Lemma demo_hc_honours : honours demo_hc.
Proof.
  intros w b arcs H a. unfold demo_hc in H. set (ws := match w with Some l => l | None => [] end) in *. set (bs := match b with Some l => l | None => [] end) in *.
  destruct (existsb _ ws) eqn:Ex; [discriminate|]. assert (E : arcs = (ws ++ filter (fun a => if in_dec arc_dec a bs then false else true) [("a", "b"); ("b", "c")])%list) by congruence.
  assert (Lw : listed w a -> In a ws) by (destruct w; cbn; tauto). assert (Lb : listed b a -> In a bs) by (destruct b; cbn; tauto).
  split; intros Hl; rewrite E, in_app_iff; [left; auto|]. apply Lb in Hl. intros [Hw|Hf].
  - assert (existsb (fun a => if in_dec arc_dec a bs then true else false) ws = true); [|congruence].
    apply existsb_exists. exists a. split; [exact Hw|]. destruct (in_dec arc_dec a bs); [reflexivity|contradiction].
  - apply filter_In in Hf as [_ Hf]. destruct (in_dec arc_dec a bs); [discriminate|contradiction].
Qed.

(** ** Packaged for the property file *)
Lemma triangle_refutes : exists N, dag N /\ (exists O (P : probability O) X eps, solves P N X eps) /\
  forall tol, 0 < tol -> forall O (P : probability O) X eps, solves P N X eps ->
    get_sigma R_ops tol N [] <> Ok (map (fun v => map (fun u => cov P (X v) (X u)) (n_order N)) (n_order N)).
Proof.
  exists triangle. split; [exact triangle_dag|]. split; [exists (list bool), (coin_space 3), (solution triangle), (noise triangle); exact triangle_solved|].
  intros tol Ht. apply (triangle_wrong tol Ht).
Qed.
Lemma huge_asserts : exists N : network f64, dag N /\ get_sigma (b64_ops seq_sum) (dec 1 8) N [] = Raise AssertionError.
Proof. exists huge. split; [exact huge_dag|vm_compute; reflexivity]. Qed.
Lemma roots_case : dag roots /\ flt (Z2f 0) (dec 1 8) = true /\ is_ok (get_sigma (b64_ops seq_sum) (dec 1 8) roots []) = true.
Proof.
  split; [|split; vm_compute; reflexivity].
  split; [repeat constructor; cbn [In n_order roots]; intuition discriminate|]. intros i v H. split; [reflexivity|constructor].
Qed.
Lemma pinv1_inverse x : x <> 0 -> exists G, pinv1 [[x]] = Ok G /\ gen_inverse 1 [[x]] G.
Proof.
  intros Hx. exists [[/ x]]. split; [reflexivity|]. refine (conj eq_refl (conj _ _)); [repeat constructor|].
  cbn. repeat (f_equal; try (field; exact Hx)).
Qed.
Lemma triangle_refutes_inference : exists N ord pinv vn, dag N /\ ord_ok ord /\ incl vn (n_order N) /\ vn <> [] /\
  (forall x, x <> 0 -> exists G, pinv [[x]] = Ok G /\ gen_inverse (length vn) [[x]] G) /\ (exists O (P : probability O) X eps, solves P N X eps) /\
  forall tol, 0 < tol -> forall O (P : probability O) X eps, solves P N X eps ->
  ~ exists m S, (forall e, length e = length vn -> inference R_ops tol ord pinv N e vn = Ok (m e, S)) /\
      conditional P X vn (set_minus ord (n_order N) vn) m S.
Proof.
  exists triangle, one_bucket, pinv1, ["c"]. refine (conj triangle_dag (conj (by_hash_ok _) (conj _ (conj _ (conj pinv1_inverse (conj _ _)))))).
  - intros x [<-|[]]; cbn; tauto.
  - discriminate.
  - exists (list bool), (coin_space 3), (solution triangle), (noise triangle). exact triangle_solved.
  - exact triangle_inference_wrong.
Qed.
Lemma roots_sample : NoDup (map fst [("c", Z2f 0)]) /\
  is_ok (sample_evidence (b64_ops seq_sum) (dec 1 8) one_bucket pinv64 draw_mean 1 ["a"; "b"; "c"] [("c", Z2f 0)] roots) = true.
Proof. split; [repeat constructor; cbn; tauto|vm_compute; reflexivity]. Qed.

(** an injective numbering of strings *)
Fixpoint bits (l : list bool) : nat := match l with [] => 1 | b :: l' => (if b then 1 else 0) + 2 * bits l' end.
Lemma bits_pos l : (1 <= bits l)%nat. Proof. induction l as [|[] l IH]; cbn [bits]; lia. Qed.
Lemma bits_inj l : forall l', bits l = bits l' -> l = l'.
Proof.
  induction l as [|b l IH]; intros [|b' l'] H; cbn [bits] in H; [reflexivity| | |].
  - pose proof (bits_pos l'). destruct b'; lia.
  - pose proof (bits_pos l). destruct b; lia.
  - assert (b = b') by (destruct b, b'; try reflexivity; lia). subst. f_equal. apply IH. destruct b'; lia.
Qed.
Definition ascii_list (a : Ascii.ascii) : list bool := match a with Ascii.Ascii a b c d e f g h => [a; b; c; d; e; f; g; h] end.
Fixpoint string_list (s : string) : list bool := match s with EmptyString => [] | String a s' => (ascii_list a ++ string_list s')%list end.
Lemma string_list_inj s : forall s', string_list s = string_list s' -> s = s'.
Proof.
  induction s as [|a s IH]; intros [|a' s'] H; [reflexivity|destruct a'; discriminate|destruct a; discriminate|].
  destruct a, a'. cbn in H. injection H as -> -> -> -> -> -> -> -> H. f_equal. apply IH, H.
Qed.
Lemma injective_hash : exists h : string -> nat, forall x y, h x = h y -> x = y.
Proof. exists (fun s => bits (string_list s)). intros x y H. apply string_list_inj, bits_inj, H. Qed.
