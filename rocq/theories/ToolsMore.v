(** More on the matrices and layouts of tools.py and on the kernel of UniKDE: arguments outside the
    usual ones. *)
From Coq Require Import String List ZArith Bool Lia.
From Verif Require Import PyBase B64 NdArray Eda Gbn Nets Tools ToolsThms.
Import ListNotations.
Open Scope nat_scope.

Lemma no_matrix arcs n : (n < 0)%Z -> arcs2adj_mat arcs n = Raise ValueError.
Proof. intros H. unfold arcs2adj_mat. apply Z.ltb_lt in H. rewrite H. reflexivity. Qed.

(** Assigning positions to names that may be repeated: the last one counts. *)
Lemma assign_last vars : forall ps d, length vars <= length ps -> exists d', assign vars ps d = Ok d' /\
  (forall v, In v vars -> exists k p, nth_error vars k = Some v /\ nth_error ps k = Some p /\ dget v d' = Some p) /\
  (forall v, ~ In v vars -> dget v d' = dget v d).
Proof.
  induction vars as [|v vars IH]; intros ps d HL; cbn [assign].
  - exists d. split; [destruct ps; reflexivity|]. split; [intros u []|reflexivity].
  - destruct ps as [|p ps]; [cbn in HL; lia|]. destruct (IH ps (dput v p d)) as (d' & E & H1 & H2); [cbn in HL; lia|].
    exists d'. split; [exact E|]. split.
    + intros u Hu. destruct (in_dec string_dec u vars) as [Hin|Hin].
      * destruct (H1 u Hin) as [k [q [K1 [K2 K3]]]]. exists (S k), q. auto.
      * destruct Hu as [->|Hu]; [|contradiction]. exists 0, p. cbn. rewrite (H2 u Hin), dget_dput_same. auto.
    + intros u Hu. cbn in Hu. rewrite H2 by tauto. apply dget_dput_other. tauto.
Qed.

Lemma positions_any variables : variables <> [] -> (Z.of_nat (length variables) < 2 ^ 53)%Z ->
  exists d, set_positions variables = Ok d /\ (forall v, In v variables -> exists p, dget v d = Some p) /\ (forall v, ~ In v variables -> dget v d = None) /\
    forall v u p, In v variables -> In u variables -> dget v d = Some p -> dget u d = Some p -> v = u.
Proof.
  intros Hne Hb. unfold set_positions. assert (Hn : 1 <= length variables) by (destruct variables; [contradiction|cbn; lia]).
  destruct (n_cols_ok _ Hn Hb) as (c & Ec & Hc). destruct (n_rows_ok _ c Hn Hb Hc) as (r & Er & Hr & Hr0). rewrite Ec. cbn [rbind]. rewrite Er. cbn [rbind].
  assert (HL : length variables <= length (pos_list r c)).
  { rewrite pos_list_length. apply Nat2Z.inj_le. rewrite Nat2Z.inj_mul, !Z2Nat.id by lia. exact Hr. }
  destruct (assign_last variables (pos_list r c) [] HL) as (d & Ed & H1 & H2). exists d. split; [exact Ed|]. split; [|split].
  - intros v Hv. destruct (H1 v Hv) as [k [p [_ [_ H]]]]. eauto.
  - intros v Hv. rewrite (H2 v Hv). reflexivity.
  - intros v u p Hv Hu Ev Eu. destruct (H1 v Hv) as [k [q [K1 [K2 K3]]]]. destruct (H1 u Hu) as [l [q' [L1 [L2 L3]]]].
    assert (k = l); [|congruence].
    eapply (proj1 (NoDup_nth_error _) (pos_list_nodup r c)); [apply nth_error_Some; rewrite K2; discriminate|congruence].
Qed.

(** The kernel after learning the data sets one after the other. *)
Definition kernel_after {W Net K} (L : @library W Net K) (ds : list arr) : option K :=
  fold_left (fun k d => snd (kde_learn L d k)) ds None.

Lemma kernel_kept {W Net K} (L : @library W Net K) ds : forall k, (forall d, In d ds -> forall x, l_kde L d <> Ok x) ->
  fold_left (fun k d => snd (kde_learn L d k)) ds k = k.
Proof.
  induction ds as [|d ds IH]; intros k H; [reflexivity|]. cbn [fold_left]. rewrite IH by (intros d' Hd; apply H; right; exact Hd).
  unfold kde_learn. destruct (l_kde L d) as [x|e] eqn:E; [exfalso; apply (H d (or_introl eq_refl) x E)|reflexivity].
Qed.
Lemma kernel_history {W Net K} (L : @library W Net K) size w :
  (forall ds, (forall d, In d ds -> forall x, l_kde L d <> Ok x) -> kde_sample L (kernel_after L ds) size w = (Raise AttributeError, w)) /\
  (forall ds d x ds', l_kde L d = Ok x -> (forall d', In d' ds' -> forall y, l_kde L d' <> Ok y) ->
     kde_sample L (kernel_after L (ds ++ d :: ds')) size w = l_resample L x size w).
Proof.
  split.
  - intros ds H. unfold kernel_after. rewrite kernel_kept by exact H. reflexivity.
  - intros ds d x ds' Hx H. unfold kernel_after. rewrite fold_left_app. cbn [fold_left]. rewrite kernel_kept by exact H.
    unfold kde_learn. rewrite Hx. reflexivity.
Qed.
