(** Which arguments the constructors of the initialisers refuse. *)
From Coq Require Import List ZArith Bool Lia.
From Verif Require Import PyBase B64 NdArray Rand Models Inits InitThms Lhs LhsThms.
Import ListNotations.
Open Scope nat_scope.

(** A list (not an array) of another length. *)
Definition wrong_list (n : Z) (b : bound) : Prop := exists l, b = BList true l /\ Z.of_nat (List.length l) <> n.

Lemma bound_len_ok_spec n b : (bound_len_ok n b = false <-> wrong_list n b).
Proof.
  unfold wrong_list. destruct b as [|p|[|] l]; cbn [bound_len_ok].
  - split; [discriminate|]. intros (l & E & _). discriminate.
  - split; [discriminate|]. intros (l & E & _). discriminate.
  - rewrite Z.eqb_neq. split; [intros H; exists l; split; [reflexivity|exact H]|]. intros (l' & E & H). injection E as <-. exact H.
  - split; [discriminate|]. intros (l' & E & _). discriminate.
Qed.

(** Lists of the wrong length are refused, everything else is accepted as it is. *)
Lemma bounds_checked n lo hi :
  (wrong_list n lo \/ wrong_list n hi -> uniform_new n lo hi = Raise AssertionError /\ lhs_new n lo hi = Raise AssertionError) /\
  (~ wrong_list n lo -> ~ wrong_list n hi -> uniform_new n lo hi = Ok (mkUI n lo hi) /\ lhs_new n lo hi = Ok (mkUI n lo hi)).
Proof.
  unfold uniform_new, lhs_new. rewrite <- !bound_len_ok_spec.
  destruct (bound_len_ok n lo), (bound_len_ok n hi); cbn [andb negb]; (split; [intros [H|H]|intros H H']); try discriminate; try congruence; auto.
Qed.

(** An array of the wrong length is accepted; each sample then fails. *)
Lemma arrays_unchecked {W} (g : rng W) n lo l size w u :
  List.length l <> Z.to_nat n -> List.length l <> 1 -> (0 <= n)%Z -> (exists p, lo = BNum p) ->
  uniform_new n lo (BList false l) = Ok u -> is_ok (fst (uniform_sample g u size w)) = false.
Proof.
  intros H1 H2 Hn [p ->] Hu. destruct (bounds_checked n (BNum p) (BList false l)) as [_ B].
  assert (E : uniform_new n (BNum p) (BList false l) = Ok (mkUI n (BNum p) (BList false l))).
  { apply B; intros (x & E & _); discriminate. }
  assert (Eu : u = mkUI n (BNum p) (BList false l)) by congruence. subst u.
  unfold uniform_sample. cbn [ui_n ui_lo ui_hi]. destruct (n <? 0)%Z; [reflexivity|]. unfold np_uniform.
  destruct (match bres _ _ with None => true | Some _ => false end); [reflexivity|]. destruct (negb _); [reflexivity|].
  destruct (size <? 0)%Z; [reflexivity|]. unfold broadcasts at 2. cbn [bound_len].
  destruct (Nat.eqb_spec (List.length l) (Z.to_nat n)); [contradiction|]. destruct (Nat.eqb_spec (List.length l) 1); [contradiction|].
  cbn [orb]. rewrite andb_false_r. reflexivity.
Qed.

(** Means and deviations of different lengths are refused. *)
Lemma unigauss_checked {W} (g : rng W) n means stds lower higher w :
  List.length means <> List.length stds -> unigauss_init_new g n means stds lower higher w = (Raise AssertionError, w).
Proof. intros H. unfold unigauss_init_new. destruct (Nat.eqb_spec (List.length means) (List.length stds)); [contradiction|reflexivity]. Qed.

(** A mean vector and a matrix of different lengths are refused. *)
Lemma mgauss_checked {W} (g : rng W) n means cov lower upper w :
  List.length means <> List.length cov -> mgauss_init_new g n means cov lower upper w = (Raise AssertionError, w).
Proof. intros H. unfold mgauss_init_new. destruct (Nat.eqb_spec (List.length means) (List.length cov)); [contradiction|reflexivity]. Qed.

(** Equal lengths other than the number of variables (and other than 1) are accepted; each
    sample then fails. *)
Lemma unigauss_unchecked {W} (g : rng W) n means stds lower higher w size w0 :
  List.length means = List.length stds -> List.length means <> Z.to_nat n -> 2 <= List.length means ->
  exists i, unigauss_init_new g n means stds lower higher w = (Ok i, w) /\ fst (unigauss_init_sample g i size w0) = Raise ValueError.
Proof.
  intros E H1 H2. unfold unigauss_init_new. rewrite E, Nat.eqb_refl. cbn [negb].
  destruct means as [|m ms]; [cbn in H2; lia|]. eexists. split; [reflexivity|].
  unfold unigauss_init_sample, np_normal. cbn [gi_means gi_stds gi_n].
  destruct (existsb _ _); [reflexivity|]. destruct (size <? 0)%Z; [reflexivity|].
  unfold broadcasts at 1. destruct (Nat.eqb_spec (List.length (m :: ms)) (Z.to_nat n)); [contradiction|].
  destruct (Nat.eqb_spec (List.length (m :: ms)) 1); [cbn [List.length] in *; lia|]. reflexivity.
Qed.

(** Categorical: the first variable whose values and frequencies differ in number, all variables
    before it being in order, decides. *)
Definition column_fits (s : list f64 -> f64) (v : list cell) (f : list f64) : Prop :=
  List.length v = List.length f /\ fle (fabs (fsub (s f) fone)) freq_tol = true.

Lemma cat_check_iff s n : forall values freq,
  cat_check s n values freq = Ok tt <->
  n <= List.length values /\ n <= List.length freq /\
  forall j v f, j < n -> nth_error values j = Some v -> nth_error freq j = Some f -> column_fits s v f.
Proof.
  induction n as [|n IH]; intros values freq; cbn [cat_check].
  - split; [intros _; split; [lia|]; split; [lia|]; intros j v f Hj; lia|reflexivity].
  - destruct values as [|v vs]; [split; [discriminate|intros (H & _); cbn in H; lia]|].
    destruct freq as [|f fs]; [split; [discriminate|intros (_ & H & _); cbn in H; lia]|].
    destruct (Nat.eqb_spec (List.length v) (List.length f)) as [El|El]; cbn [negb].
    + destruct (fle (fabs (fsub (s f) fone)) freq_tol) eqn:Ef.
      * rewrite IH. cbn [List.length]. split.
        -- intros (A & B & C). split; [lia|]. split; [lia|]. intros [|j] v' f' Hj Hv Hf; cbn [nth_error] in *.
           ++ injection Hv as <-. injection Hf as <-. split; assumption.
           ++ apply (C j); [lia|assumption..].
        -- intros (A & B & C). split; [lia|]. split; [lia|]. intros j v' f' Hj Hv Hf. apply (C (S j)); [lia|assumption..].
      * split; [discriminate|]. intros (_ & _ & C). destruct (C 0 v f) as [_ X]; [lia|reflexivity|reflexivity|congruence].
    + split; [discriminate|]. intros (_ & _ & C). destruct (C 0 v f) as [X _]; [lia|reflexivity|reflexivity|contradiction].
Qed.

Lemma cat_new_iff s n values freq :
  is_ok (cat_init_new s n values freq) = true <->
  Z.to_nat n <= List.length values /\ Z.to_nat n <= List.length freq /\
  forall j v f, j < Z.to_nat n -> nth_error values j = Some v -> nth_error freq j = Some f -> column_fits s v f.
Proof.
  rewrite <- cat_check_iff. unfold cat_init_new. destruct (cat_check s (Z.to_nat n) values freq) as [[]|e]; cbn; split; congruence.
Qed.
