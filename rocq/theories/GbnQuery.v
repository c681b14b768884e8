(** Which queries to a Gaussian Bayesian network are answered: unknown variables, numbers of
    values, networks that were not learned. *)
From Coq Require Import String List ZArith Bool Lia Reals.
From Verif Require Import PyBase B64 NdArray Models Gbn GbnSpec GbnThms GbnSigma GbnInfer Stock Nets.
Import ListNotations.
Open Scope nat_scope.

Section Any.
Context {T : Type} (o : ops T).

Lemma all_mu_total (N : network T) : dag N -> exists mu, all_mu o N = Ok mu /\ length mu = length (n_order N).
Proof.
  intros HD. unfold all_mu. set (n := length (n_order N)).
  destruct (each_seq (mu_node o N) (fun _ mu => length mu = n) 0 n (repeat (zero o) n)) as (mu & E & L); [apply repeat_length| |exists mu; split; [exact E|exact L]].
  intros i mu Hi L. unfold mu_node. destruct (node_at N i ltac:(unfold n in Hi; lia)) as (v & Hv & Hn). rewrite Hn.
  pose proof (dag_length N i v HD Hv) as HL. pose proof (dag_beta N i v HD Hv) as HB.
  destruct (d_beta (n_cpd N v)) as [|b0 bs]; [congruence|]. cbn [tl] in HL.
  apply (terms_inv _ (fun mu => length mu = n)); [exact HL|rewrite vset_length; exact L|].
  intros p c s Hp Ls. destruct (dag_parent N i v p HD Hv Hp) as (Ei & _). rewrite Ei. cbn [rbind]. eexists. split; [reflexivity|]. rewrite vset_length. exact Ls.
Qed.

Lemma positions_cases (N : network T) vars : dag N ->
  match Gbn.positions N vars with
  | Ok idx => incl vars (n_order N) /\ length idx = length vars
  | Raise e => e = ValueError /\ exists v, In v vars /\ ~ In v (n_order N) end.
Proof.
  intros HD. destruct (Forall_Exists_dec (fun v => In v (n_order N)) (fun v => in_dec string_dec v (n_order N)) vars) as [H|H].
  - rewrite Forall_forall in H. destruct (positions_ok N vars HD H) as [E _]. rewrite E. split; [exact H|apply map_length].
  - apply Exists_exists in H as (v & Hv & Hn). rewrite (positions_absent N vars v HD Hv Hn). split; [reflexivity|]. exists v. split; assumption.
Qed.

Theorem get_mu_answers (N : network T) vars : dag N ->
  match get_mu o N vars with
  | Ok m => incl vars (n_order N) /\ length m = length (match vars with [] => n_order N | _ => vars end)
  | Raise e => e = ValueError /\ exists v, In v vars /\ ~ In v (n_order N) end.
Proof.
  intros HD. unfold get_mu. destruct (all_mu_total N HD) as (mu & E & L). rewrite E. cbn [rbind]. destruct vars as [|v0 vs].
  - split; [intros x []|exact L].
  - pose proof (positions_cases N (v0 :: vs) HD) as HP. destruct (Gbn.positions N (v0 :: vs)) as [idx|e]; cbn [rbind]; [|exact HP].
    rewrite map_length. exact HP.
Qed.

(** An unknown variable among the measured ones. *)
Theorem inference_unknown tol ord pinv (N : network T) e vn v : dag N -> In v vn -> ~ In v (n_order N) ->
  inference o tol ord pinv N e vn = Raise ValueError.
Proof.
  intros HD Hv Hn. unfold inference. pose proof (get_mu_answers N (set_minus ord (n_order N) vn ++ vn) HD) as H.
  destruct (get_mu o N (set_minus ord (n_order N) vn ++ vn)) as [m|ex]; cbn [rbind].
  - exfalso. apply Hn. apply (proj1 H). apply in_or_app. right. exact Hv.
  - destruct H as [-> _]. reflexivity.
Qed.

(** One value stands for all measured variables. *)
Theorem inference_one tol ord pinv (N : network T) x vn : dag N -> ord_ok ord -> vn <> [] ->
  inference o tol ord pinv N [x] vn = inference o tol ord pinv N (repeat x (length vn)) vn.
Proof.
  intros HD Ho Hne. unfold inference. set (v1 := set_minus ord (n_order N) vn).
  pose proof (get_mu_answers N (v1 ++ vn) HD) as H. destruct (get_mu o N (v1 ++ vn)) as [m|ex]; cbn [rbind]; [|reflexivity].
  destruct (get_sigma o tol N (v1 ++ vn)) as [S|ex]; cbn [rbind]; [|reflexivity].
  match goal with |- rbind ?a _ = _ => destruct a as [p|ex]; cbn [rbind]; [|reflexivity] end.
  assert (L : length (skipn (length v1) m) = length vn).
  { rewrite skipn_length, (proj2 H). destruct (v1 ++ vn) eqn:E; [apply app_eq_nil in E as [_ E]; congruence|]. rewrite <- E, app_length. lia. }
  set (mu2 := skipn (length v1) m) in *. assert (Ed : deviation o [x] mu2 = deviation o (repeat x (length vn)) mu2).
  { unfold deviation. rewrite repeat_length, L, Nat.eqb_refl. destruct (Nat.eqb_spec (length [x]) (length vn)) as [E1|_].
    - destruct vn as [|u [|u' vn]]; try discriminate. reflexivity.
    - f_equal. rewrite <- L. unfold vsub. clear. induction mu2 as [|y l IH]; [reflexivity|]. cbn [map length repeat combine]. rewrite IH. reflexivity. }
  rewrite Ed. reflexivity.
Qed.

(** Any other number of values. *)
Theorem inference_refuses tol ord pinv (N : network T) e vn r : dag N -> ord_ok ord -> length e <> length vn -> length e <> 1 ->
  inference o tol ord pinv N e vn <> Ok r.
Proof.
  intros HD Ho H1 H2. unfold inference. set (v1 := set_minus ord (n_order N) vn).
  pose proof (get_mu_answers N (v1 ++ vn) HD) as H. destruct (get_mu o N (v1 ++ vn)) as [m|ex]; cbn [rbind]; [|discriminate].
  destruct (get_sigma o tol N (v1 ++ vn)) as [S|ex]; cbn [rbind]; [|discriminate].
  match goal with |- rbind ?a _ <> _ => destruct a as [p|ex]; cbn [rbind]; [|discriminate] end.
  assert (L : length (skipn (length v1) m) = length vn).
  { rewrite skipn_length, (proj2 H). destruct (v1 ++ vn) eqn:E; [|rewrite <- E, app_length; lia].
    apply app_eq_nil in E as [E1 E2]. rewrite E1, E2. cbn [length].
    destruct (n_order N) as [|y ys] eqn:En; [reflexivity|]. exfalso.
    assert (Hy : In y v1) by (unfold v1; apply (set_minus_in ord _ _ y Ho); rewrite E2; cbn; tauto). rewrite E1 in Hy. destruct Hy. }
  unfold deviation. rewrite L. destruct (Nat.eqb_spec (length e) (length vn)) as [E1|_]; [congruence|].
  destruct e as [|x [|y e]]; cbn [rbind]; try discriminate. cbn in H2. congruence.
Qed.
End Any.

(** Over the reals the symmetry test never fires. *)
Theorem get_sigma_answers tol (N : network R) vars : dag N -> (0 < tol)%R ->
  match get_sigma R_ops tol N vars with
  | Ok m => incl vars (n_order N) /\ length m = length (match vars with [] => n_order N | _ => vars end) /\ Forall (fun r => length r = length m) m
  | Raise e => e = ValueError /\ exists v, In v vars /\ ~ In v (n_order N) end.
Proof.
  intros HD Ht. unfold get_sigma. destruct (all_sigma_symmetric R_ops N HD) as (m & E & [S1 S2] & Y). rewrite E. cbn [rbind].
  rewrite (check_exact N tol m Ht Y). destruct vars as [|v0 vs].
  - split; [intros x []|]. split; [exact S1|]. apply Forall_forall. intros r Hr. apply In_nth_error in Hr as [i Hi].
    pose proof (nth_error_lt _ _ _ Hi) as Hl. rewrite S1 in Hl. rewrite S1, <- (S2 i Hl). f_equal. symmetry. apply nth_error_nth. exact Hi.
  - pose proof (positions_cases N (v0 :: vs) HD) as HP. destruct (Gbn.positions N (v0 :: vs)) as [idx|e]; cbn [rbind]; [|exact HP].
    destruct HP as [P1 P2]. split; [exact P1|]. rewrite !map_length. split; [exact P2|].
    apply Forall_forall. intros r Hr. apply in_map_iff in Hr as (i & <- & _). apply map_length.
Qed.

(* ------------------------------------------------------------------ *)
(** ** maximum_a_posteriori and the fitted flag *)

Section Fitted.
Context {W Net K : Type} (L : @library W Net K).

(** The GBN models a program can reach: constructed, then learned any number of times; the flag
    says whether one of the calls returned. *)
Inductive reached : netm Net -> bool -> Prop :=
| reached_new variables white black : reached (net_new L KGBN variables white black) false
| reached_learned m b d w m' w' : reached m b -> gbn_learn L d m w = (Ok tt, (m', w')) -> reached m' true
| reached_failed m b d w e m' w' : reached m b -> gbn_learn L d m w = (Raise e, (m', w')) -> reached m' b.

Lemma net_learn_fitted k folds d m w : nm_fitted (fst (snd (net_learn L k folds d m w))) = nm_fitted m.
Proof.
  unfold net_learn. destruct (to_table (nm_vars m) d) as [t|e]; [|reflexivity]. destruct (search L k folds t _ w) as [[net|e] w1]; [|reflexivity].
  destruct (l_fit L t net w1) as [r [net' w2]]. reflexivity.
Qed.

Lemma reached_fitted m b : reached m b -> nm_fitted m = b.
Proof.
  induction 1 as [| m b d w m' w' _ IH H | m b d w e m' w' _ IH H]; [reflexivity| |]; unfold gbn_learn in H.
  - destruct (net_learn L KGBN 0 d m w) as [[[]|e] [m1 w1]]; [|discriminate].
    assert (E : m' = mkNetM (nm_vars m1) (nm_white m1) (nm_black m1) (nm_pm m1) (Some (l_order L (nm_pm m1))) true) by congruence. subst m'. reflexivity.
  - pose proof (net_learn_fitted KGBN 0 d m w) as HF. destruct (net_learn L KGBN 0 d m w) as [[[]|e1] [m1 w1]]; [discriminate|].
    cbn [fst snd] in HF. assert (m1 = m') by congruence. subst m1. rewrite HF. exact IH.
Qed.

(** [GBN.maximum_a_posteriori] (gaussian_bayesian_network.py:230-235) of a model object; [view] is
    what the code reads from pybnesian's network. *)
Definition gbn_map {T} (o : ops T) (view : Net -> network T) tol ord pinv (m : netm Net) (evidence : list T) (var_names : list string) : res (list T) :=
  maximum_a_posteriori o (nm_fitted m) tol ord pinv (view (nm_pm m)) evidence var_names.

Theorem map_answers {T} (o : ops T) view tol ord pinv m e vn :
  (reached m false -> gbn_map o view tol ord pinv m e vn = Raise AssertionError) /\
  (reached m true -> gbn_map o view tol ord pinv m e vn = rmap fst (inference o tol ord pinv (view (nm_pm m)) e vn)).
Proof. split; intros H; apply reached_fitted in H; unfold gbn_map, maximum_a_posteriori; rewrite H; reflexivity. Qed.
End Fitted.

(** A library that needs two rows. *)
Definition two_rows_lib : @library unit nat unit := {|
  l_new := fun _ _ => 0;
  l_hc := fun _ t _ _ _ _ w => (if Nat.ltb (List.length (tb_rows t)) 2 then Raise ValueError else Ok 1, w);
  l_fit := fun _ x w => (Ok tt, (x, w));
  l_order := fun _ => ["0"]%string;
  l_draw := fun _ _ w => (Raise ValueError, w);
  l_climb := fun _ _ w => (Raise ValueError, w);
  l_nodes := fun _ x => x;
  l_edge := fun _ x => (Ok tt, x);
  l_arcs := fun _ => [];
  l_kde := fun _ => Raise ValueError;
  l_resample := fun _ _ w => (Raise ValueError, w)
|}.
(** A data set with one column.  Not code: an example. *)
Definition one_column (n : nat) : arr := mkArr DFloat 1 (repeat [CF fone] n).
(** A network before learning.  Not code: an example. *)
Definition new_gbn : netm nat := net_new two_rows_lib KGBN ["0"]%string None None.

Lemma map_stale : exists (L : @library unit nat unit) d (m : netm nat) w e m' w', reached L m true /\ nm_pm m <> l_new L KGBN (nm_vars m) /\
  gbn_learn L d m w = (Raise e, (m', w')) /\ nm_pm m' = l_new L KGBN (nm_vars m) /\
  forall T (o : ops T) view tol ord pinv ev vn,
    gbn_map o view tol ord pinv m' ev vn = rmap fst (inference o tol ord pinv (view (l_new L KGBN (nm_vars m))) ev vn).
Proof.
  set (m := fst (snd (gbn_learn two_rows_lib (one_column 2) new_gbn tt))).
  assert (Hm : reached two_rows_lib m true).
  { apply (reached_learned two_rows_lib new_gbn false (one_column 2) tt m tt); [apply reached_new|reflexivity]. }
  exists two_rows_lib, (one_column 1), m, tt, ValueError, (fst (snd (gbn_learn two_rows_lib (one_column 1) m tt))), tt.
  split; [exact Hm|]. split; [discriminate|]. split; [reflexivity|]. split; [reflexivity|].
  intros T o view tol ord pinv ev vn. refine (proj2 (map_answers two_rows_lib o view tol ord pinv _ ev vn) _).
  apply (reached_failed two_rows_lib m true (one_column 1) tt ValueError _ tt Hm). reflexivity.
Qed.

(** Two measured variables, one value. *)
Lemma one_value_accepted : exists (N : network f64) ord pinv e vn r, dag N /\ ord_ok ord /\ incl vn (n_order N) /\ length e <> length vn /\
  inference (b64_ops seq_sum) (lit 1 (-20)) ord pinv N e vn = Ok r.
Proof.
  set (N := mkNet ["a"; "b"]%string (fun _ => mkCpd [] [Z2f 0] (Z2f 1))). set (ord := mkOrd (nodup string_dec) (fun l => l)). set (pinv := fun m : list (list f64) => Ok m).
  set (q := inference (b64_ops seq_sum) (lit 1 (-20)) ord pinv N [Z2f 3] ["a"; "b"]%string).
  assert (Hq : is_ok q = true) by (vm_compute; reflexivity). destruct q as [r|e] eqn:Eq; [|discriminate].
  exists N, ord, pinv, [Z2f 3], ["a"; "b"]%string, r. split.
  - split; [repeat constructor; cbn; intuition discriminate|]. intros i v Hv. cbn [N n_cpd d_beta d_parents]. split; [reflexivity|constructor].
  - split; [split; [intros l; split; [apply NoDup_nodup|intros x; apply nodup_In]|intros l Hl; split; [exact Hl|reflexivity]]|]. split; [intros x Hx; exact Hx|]. split; [discriminate|exact Eq].
Qed.
