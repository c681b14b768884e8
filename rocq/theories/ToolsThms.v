(** Adjacency matrices and layouts: proofs. *)
From Coq Require Import String List ZArith Bool Lia Reals Lra.
From Flocq Require Import Core IEEE754.BinarySingleNaN.
From Flocq Require Relative.
From Verif Require Import PyBase B64 B64More NdArray Models Trunc Gbn GbnThms Tools.
Import ListNotations.
Open Scope nat_scope.
Local Open Scope res_scope.

(** ** Adjacency *)
(** the integer [i] names the row or column [k] of [n] *)
Definition names (n : nat) (a : node) (k : nat) : Prop :=
  exists i, a = At i /\ ((i = Z.of_nat k \/ i = (Z.of_nat k - Z.of_nat n)%Z) /\ k < n).
Definition in_range (n : nat) (a : node) : Prop := exists i, a = At i /\ (- Z.of_nat n <= i < Z.of_nat n)%Z.

Lemma axis_index_spec n a : match axis_index n a with
  | Ok k => in_range n a /\ forall k', names n a k' <-> k' = k
  | Raise e => e = IndexError /\ ~ in_range n a end.
Proof.
  destruct a as [i|s]; cbn [axis_index].
  - destruct (Z.leb_spec 0 i) as [H0|H0]; cbn [andb].
    + destruct (Z.ltb_spec i (Z.of_nat n)) as [H1|H1].
      * split; [exists i; split; [reflexivity|lia]|]. intros k'. unfold names. split.
        -- intros (i' & E & H). assert (i' = i) by congruence. subst i'. lia.
        -- intros ->. exists i. split; [reflexivity|]. lia.
      * replace (i <? 0)%Z with false by (symmetry; apply Z.ltb_ge; lia). rewrite andb_false_r. split; [reflexivity|].
        intros (i' & E & H). assert (i' = i) by congruence. subst i'. lia.
    + replace (i <? 0)%Z with true by (symmetry; apply Z.ltb_lt; lia). rewrite andb_true_r. destruct (Z.leb_spec (- Z.of_nat n) i) as [H1|H1].
      * split; [exists i; split; [reflexivity|lia]|]. intros k'. unfold names. split.
        -- intros (i' & E & H). assert (i' = i) by congruence. subst i'. lia.
        -- intros ->. exists i. split; [reflexivity|]. lia.
      * split; [reflexivity|]. intros (i' & E & H). assert (i' = i) by congruence. subst i'. lia.
  - split; [reflexivity|]. intros (i & E & _). discriminate.
Qed.

Definition arc_in_range (n : nat) (a : node * node) : Prop := in_range n (fst a) /\ in_range n (snd a).
(** some arc of the list names the entry (i, j) *)
Definition joined (n : nat) (arcs : list (node * node)) (i j : nat) : Prop := exists a, In a arcs /\ names n (fst a) i /\ names n (snd a) j.

Lemma put_arcs n arcs : forall m, square n m -> match each (put_arc n) arcs m with
  | Ok m' => Forall (arc_in_range n) arcs /\ square n m' /\ forall i j, i < n -> j < n ->
      (joined n arcs i j -> nth j (nth i m' []) (Z2f 0) = Z2f 1) /\ (~ joined n arcs i j -> nth j (nth i m' []) (Z2f 0) = nth j (nth i m []) (Z2f 0))
  | Raise e => e = IndexError /\ ~ Forall (arc_in_range n) arcs end.
Proof.
  induction arcs as [|a arcs IH]; intros m Hm; cbn [each].
  - split; [constructor|]. split; [exact Hm|]. intros i j Hi Hj. split; [intros (x & [] & _)|reflexivity].
  - unfold put_arc at 1. pose proof (axis_index_spec n (fst a)) as H1. destruct (axis_index n (fst a)) as [r|e]; cbn [rbind].
    2:{ split; [apply H1|]. intros F. inversion F as [|? ? [F1 F2]]; subst. apply H1, F1. }
    pose proof (axis_index_spec n (snd a)) as H2. destruct (axis_index n (snd a)) as [c|e]; cbn [rbind].
    2:{ split; [apply H2|]. intros F. inversion F as [|? ? [F1 F2]]; subst. apply H2, F2. }
    destruct H1 as [R1 N1]. destruct H2 as [R2 N2].
    assert (Hr : r < n) by (destruct (proj2 (N1 r) eq_refl) as (? & _ & _ & ?); assumption).
    assert (Hc : c < n) by (destruct (proj2 (N2 c) eq_refl) as (? & _ & _ & ?); assumption).
    assert (Hm' : square n (mset r c (Z2f 1) m)) by (apply square_mset; exact Hm).
    specialize (IH _ Hm'). destruct (each (put_arc n) arcs (mset r c (Z2f 1) m)) as [m'|e].
    + destruct IH as (F & Sq & E). split; [constructor; [split; assumption|exact F]|]. split; [exact Sq|]. intros i j Hi Hj. destruct (E i j Hi Hj) as [E1 E2].
      assert (G : nth j (nth i (mset r c (Z2f 1) m) []) (Z2f 0) = if Nat.eq_dec i r then if Nat.eq_dec j c then Z2f 1 else nth j (nth i m []) (Z2f 0) else nth j (nth i m []) (Z2f 0)).
      { destruct (Nat.eq_dec i r) as [->|Hir]; [destruct (Nat.eq_dec j c) as [->|Hjc]|].
        - exact (mget_same (b64_ops (fun _ => Z2f 0)) n r c (Z2f 1) m Hm Hr Hc).
        - exact (mget_other (b64_ops (fun _ => Z2f 0)) n r c r j (Z2f 1) m Hm Hr (or_intror Hjc)).
        - exact (mget_other (b64_ops (fun _ => Z2f 0)) n r c i j (Z2f 1) m Hm Hr (or_introl Hir)). }
      assert (D : {joined n arcs i j} + {~ joined n arcs i j}).
      { clear - n. induction arcs as [|b l IHl]; [right; intros (x & [] & _)|]. destruct IHl as [H|H]; [left; destruct H as (x & Hx & Hy); exists x; split; [right; exact Hx|exact Hy]|].
        pose proof (axis_index_spec n (fst b)) as B1. pose proof (axis_index_spec n (snd b)) as B2.
        destruct (axis_index n (fst b)) as [p|e1]; [destruct (axis_index n (snd b)) as [q|e2]|].
        - destruct (Nat.eq_dec i p) as [Hp|Hp]; [destruct (Nat.eq_dec j q) as [Hq|Hq]|].
          + left. exists b. split; [left; reflexivity|]. split; [apply B1, Hp|apply B2, Hq].
          + right. intros (x & [<-|Hx] & Hy & Hz); [apply Hq, B2, Hz|apply H; exists x; auto].
          + right. intros (x & [<-|Hx] & Hy & Hz); [apply Hp, B1, Hy|apply H; exists x; auto].
        - right. intros (x & [<-|Hx] & Hy & Hz); [|apply H; exists x; auto]. apply B2. destruct Hz as (z & Ez & Hz1 & Hz2). exists z. split; [exact Ez|]. lia.
        - right. intros (x & [<-|Hx] & Hy & Hz); [|apply H; exists x; auto]. apply B1. destruct Hy as (z & Ez & Hz1 & Hz2). exists z. split; [exact Ez|]. lia. }
      split.
      * intros HJ. destruct D as [Hd|Hd]; [apply E1, Hd|]. rewrite (E2 Hd), G. destruct HJ as (x & [<-|Hx] & Hy & Hz); [|exfalso; apply Hd; exists x; auto].
        apply N1 in Hy. apply N2 in Hz. subst. destruct (Nat.eq_dec r r); [|contradiction]. destruct (Nat.eq_dec c c); [reflexivity|contradiction].
      * intros HJ. assert (Hd : ~ joined n arcs i j) by (intros (x & Hx & Hy); apply HJ; exists x; split; [right; exact Hx|exact Hy]). rewrite (E2 Hd), G.
        destruct (Nat.eq_dec i r) as [->|]; [|reflexivity]. destruct (Nat.eq_dec j c) as [->|]; [|reflexivity]. exfalso. apply HJ. exists a. split; [left; reflexivity|]. split; [apply N1; reflexivity|apply N2; reflexivity].
    + destruct IH as [IH1 IH2]. split; [exact IH1|]. intros F. inversion F; subst. apply IH2. assumption.
Qed.

Theorem adjacency n arcs : match arcs2adj_mat arcs (Z.of_nat n) with
  | Ok m => Forall (arc_in_range n) arcs /\ length m = n /\ (forall i, i < n -> length (nth i m []) = n) /\ forall i j, i < n -> j < n ->
      (joined n arcs i j -> nth j (nth i m []) (Z2f 0) = Z2f 1) /\ (~ joined n arcs i j -> nth j (nth i m []) (Z2f 0) = Z2f 0)
  | Raise e => e = IndexError /\ ~ Forall (arc_in_range n) arcs end.
Proof.
  unfold arcs2adj_mat. replace (Z.of_nat n <? 0)%Z with false by (symmetry; apply Z.ltb_ge; lia). rewrite Nat2Z.id.
  pose proof (square_zero (b64_ops (fun _ => Z2f 0)) n) as Hs. change (zero (b64_ops (fun _ => Z2f 0))) with (Z2f 0) in Hs.
  pose proof (put_arcs n arcs _ Hs) as H. destruct (each (put_arc n) arcs (repeat (repeat (Z2f 0) n) n)) as [m|e]; [|exact H].
  destruct H as (F & [S1 S2] & E). split; [exact F|]. split; [exact S1|]. split; [exact S2|]. intros i j Hi Hj. destruct (E i j Hi Hj) as [E1 E2]. split; [exact E1|].
  intros Hn. rewrite (E2 Hn). exact (mget_zero (b64_ops (fun _ => Z2f 0)) n i j).
Qed.

(** ** Layout *)
Lemma pos_list_length r c : length (pos_list r c) = Z.to_nat r * Z.to_nat c.
Proof.
  unfold pos_list. generalize 0 at 2 as s. induction (Z.to_nat r) as [|k IH]; intros s; [reflexivity|]. cbn [seq flat_map]. rewrite app_length, map_length, seq_length, IH. reflexivity.
Qed.
Lemma nodup_app {A} (l1 l2 : list A) : NoDup l1 -> NoDup l2 -> (forall x, In x l1 -> In x l2 -> False) -> NoDup (l1 ++ l2).
Proof.
  intros H1 H2 HD. induction H1 as [|x l1 Hx H1 IH]; [exact H2|]. cbn. constructor.
  - rewrite in_app_iff. intros [H|H]; [exact (Hx H)|exact (HD x (or_introl eq_refl) H)].
  - apply IH. intros y Hy. apply HD. right. exact Hy.
Qed.
Lemma pos_list_nodup r c : NoDup (pos_list r c).
Proof.
  unfold pos_list. generalize 0 at 2 as s. induction (Z.to_nat r) as [|k IH]; intros s; [constructor|]. cbn [seq flat_map]. apply nodup_app; [|apply IH|].
  - apply FinFun.Injective_map_NoDup; [|apply seq_NoDup]. intros a b H. assert (Z.of_nat a = Z.of_nat b) by congruence. lia.
  - intros q H1 Hq. apply in_map_iff in H1 as (c1 & <- & _). apply in_flat_map in Hq as (row & H1 & H2). apply in_map_iff in H2 as (col & E & H3). apply in_seq in H1.
    assert (Z.of_nat row = Z.of_nat s) by (assert ((- Z.of_nat row)%Z = (- Z.of_nat s)%Z) by congruence; lia). lia.
Qed.

Lemma dget_dput_same v p d : dget v (dput v p d) = Some p.
Proof.
  induction d as [|[u q] d IH]; cbn; [rewrite String.eqb_refl; reflexivity|]. destruct (String.eqb v u) eqn:E; cbn; rewrite E; [reflexivity|exact IH].
Qed.
Lemma dget_dput_other v u p d : v <> u -> dget u (dput v p d) = dget u d.
Proof.
  intros H. induction d as [|[w q] d IH]; cbn.
  - destruct (String.eqb_spec u v); [congruence|reflexivity].
  - destruct (String.eqb_spec v w) as [->|Hv]; cbn; destruct (String.eqb_spec u w) as [->|Hu]; try reflexivity; [contradiction|exact IH].
Qed.

Lemma assign_ok vars : forall ps d, NoDup vars -> length vars <= length ps -> exists d', assign vars ps d = Ok d' /\
  (forall k v, nth_error vars k = Some v -> dget v d' = nth_error ps k) /\ (forall v, ~ In v vars -> dget v d' = dget v d).
Proof.
  induction vars as [|v vars IH]; intros ps d ND HL; cbn [assign].
  - exists d. split; [destruct ps; reflexivity|]. split; [intros [|k] u H; discriminate|reflexivity].
  - destruct ps as [|p ps]; [cbn in HL; lia|]. inversion ND as [|? ? Hv ND']; subst. destruct (IH ps (dput v p d) ND' ltac:(cbn in HL; lia)) as (d' & E & H1 & H2).
    exists d'. split; [exact E|]. split.
    + intros [|k] u Hu; cbn in *; [|exact (H1 k u Hu)]. assert (u = v) by congruence. subst u. rewrite (H2 v Hv). apply dget_dput_same.
    + intros u Hu. cbn in Hu. rewrite H2 by tauto. apply dget_dput_other. tauto.
Qed.

Lemma Z2f_nat n : (Z.of_nat n < 2 ^ 53)%Z -> B2R (Z2f (Z.of_nat n)) = INR n /\ isfin (Z2f (Z.of_nat n)) = true.
Proof. intros H. destruct (Z2f_exact (Z.of_nat n) ltac:(lia)) as [E F]. rewrite E, INR_IZR_INZ. auto. Qed.

Lemma n_cols_ok n : 1 <= n -> (Z.of_nat n < 2 ^ 53)%Z -> exists c, n_cols n = Ok c /\ (1 <= c <= Z.of_nat n)%Z.
Proof.
  intros Hn Hb. destruct (Z2f_nat n Hb) as [E F]. unfold n_cols. set (x := Z2f (Z.of_nat n)) in *.
  pose proof (Bsqrt_correct 53 1024 eq_refl eq_refl mode_NE x) as (H1 & H2 & _). change (Bsqrt mode_NE x) with (fsqrt x) in *.
  change (round radix2 (SpecFloat.fexp 53 1024) (round_mode mode_NE) (sqrt (B2R x))) with (rnd (sqrt (B2R x))) in H1.
  assert (G1 : (1 <= INR n)%R) by (change 1%R with (INR 1); apply le_INR; exact Hn).
  assert (Fs : isfin (fsqrt x) = true).
  { change (isfin (fsqrt x)) with (is_finite (fsqrt x)). rewrite H2. pose proof F as F'. unfold isfin in F'. destruct x as [s|s| |s m e He] eqn:Ex; try discriminate; [reflexivity|].
    destruct s; [|reflexivity]. exfalso. assert (B2R x < 0)%R by (rewrite Ex; cbn; apply F2R_lt_0; reflexivity). rewrite Ex in H. cbn in H, E. rewrite E in H. lra. }
  rewrite (py_int_fin _ Fs). eexists. split; [reflexivity|]. rewrite H1, E.
  assert (S1 : (1 <= sqrt (INR n))%R) by (rewrite <- sqrt_1; apply sqrt_le_1_alt; exact G1).
  assert (S2 : (sqrt (INR n) <= INR n)%R).
  { rewrite <- (sqrt_square (INR n)) at 2 by lra. apply sqrt_le_1_alt. nra. }
  pose proof (Z_le_rnd (sqrt (INR n)) 1 ltac:(cbn; lia) S1) as L. pose proof (rnd_le_Z (sqrt (INR n)) (Z.of_nat n) ltac:(lia)) as U. rewrite <- INR_IZR_INZ in U. specialize (U S2).
  rewrite Ztrunc_floor by lra. split; [apply Zfloor_lub; exact L|].
  apply le_IZR. eapply Rle_trans; [apply Zfloor_lb|]. rewrite <- INR_IZR_INZ. exact U.
Qed.

Lemma n_rows_ok n c : 1 <= n -> (Z.of_nat n < 2 ^ 53)%Z -> (1 <= c <= Z.of_nat n)%Z -> exists r, n_rows n c = Ok r /\ (Z.of_nat n <= r * c)%Z /\ (0 <= r)%Z.
Proof.
  intros Hn Hb Hc. destruct (Z2f_nat n Hb) as [E F]. destruct (Z2f_exact c ltac:(lia)) as [Ec Fc]. unfold n_rows.
  replace (c =? 0)%Z with false by (symmetry; apply Z.eqb_neq; lia). set (x := Z2f (Z.of_nat n)) in *. set (y := Z2f c) in *.
  assert (C1 : (1 <= IZR c)%R) by (apply IZR_le; lia). assert (C2 : (IZR c <= INR n)%R) by (rewrite INR_IZR_INZ; apply IZR_le; lia).
  assert (Q0 : (1 <= INR n / IZR c)%R) by (apply Rmult_le_reg_r with (IZR c); [lra|]; field_simplify; lra).
  assert (Q1 : (INR n / IZR c <= INR n)%R) by (apply Rmult_le_reg_r with (IZR c); [lra|]; field_simplify; [nra|lra]).
  set (q := (INR n / IZR c)%R) in *.
  assert (R1 : (1 <= rnd q)%R) by (apply (Z_le_rnd q 1); [cbn; lia|exact Q0]).
  assert (R2 : (rnd q <= INR n)%R) by (rewrite INR_IZR_INZ; apply rnd_le_Z; [lia|rewrite <- INR_IZR_INZ; exact Q1]).
  assert (Hbig : (INR n < big)%R) by (eapply Rlt_trans; [|exact big_gt_2_53]; rewrite INR_IZR_INZ; apply IZR_lt; exact Hb).
  destruct (fdiv_fin x y F) as [Fd Ed]; [rewrite Ec; lra|rewrite E, Ec; fold q; apply Rabs_def1; lra|]. rewrite E, Ec in Ed. fold q in Ed.
  set (d := fdiv x y) in *. pose proof (Bnearbyint_correct 53 1024 eq_refl mode_UP d) as (B1 & B2 & _). change (Bnearbyint mode_UP d) with (fceil d) in *.
  assert (Fu : isfin (fceil d) = true) by (change (is_finite (fceil d) = true); rewrite B2; exact Fd).
  rewrite (py_int_fin _ Fu). rewrite B1, Ed. cbn [round_mode]. unfold round, F2R, scaled_mantissa, cexp, FIX_exp. cbn [Fnum Fexp]. cbn [Z.opp bpow]. rewrite !Rmult_1_r, Ztrunc_IZR.
  eexists. split; [reflexivity|]. set (r := Zceil (rnd q)). pose proof (Zceil_ub (rnd q)) as U. fold r in U.
  assert (R0 : (1 <= r)%Z) by (apply le_IZR; lra). split; [|lia].
  destruct (Z.le_gt_cases (Z.of_nat n) (r * c)) as [H|H]; [exact H|exfalso].
  assert (G : (r * c + 1 <= Z.of_nat n)%Z) by lia. apply IZR_le in G. rewrite plus_IZR, mult_IZR, <- INR_IZR_INZ in G.
  assert (RE : (Rabs (rnd q - q) <= / 2 * bpow radix2 (-53 + 1) * Rabs q)%R).
  { apply (Relative.relative_error_N_FLT radix2 (3 - 1024 - 53) 53 eq_refl (fun z => negb (Z.even z)) q). rewrite Rabs_pos_eq by lra.
    eapply Rle_trans; [|exact Q0]. change 1%R with (bpow radix2 0). apply bpow_le. lia. }
  rewrite (Rabs_pos_eq q) in RE by lra. change (bpow radix2 (-53 + 1)) with (/ IZR (2 ^ 52))%R in RE.
  apply Rabs_le_inv in RE as [RE _].
  assert (HN : (INR n < IZR (2 ^ 53))%R) by (rewrite INR_IZR_INZ; apply IZR_lt; exact Hb).
  assert (Eq : (q * IZR c = INR n)%R) by (unfold q; field; lra).
  assert (P : IZR (2 ^ 53) = (2 * IZR (2 ^ 52))%R) by (rewrite <- mult_IZR; apply f_equal; lia).
  assert (T : (q - / 2 * / IZR (2 ^ 52) * q <= IZR r)%R) by lra.
  assert (T2 : ((q - / 2 * / IZR (2 ^ 52) * q) * IZR c <= IZR r * IZR c)%R) by (apply Rmult_le_compat_r; lra).
  replace ((q - / 2 * / IZR (2 ^ 52) * q) * IZR c)%R with (INR n - / 2 * / IZR (2 ^ 52) * INR n)%R in T2 by (rewrite <- Eq; ring).
  assert (T3 : (1 <= / 2 * / IZR (2 ^ 52) * INR n)%R) by lra.
  assert (P52 : (0 < IZR (2 ^ 52))%R) by (apply IZR_lt; lia).
  apply (Rmult_le_compat_l (2 * IZR (2 ^ 52))) in T3; [|lra]. replace (2 * IZR (2 ^ 52) * (/ 2 * / IZR (2 ^ 52) * INR n))%R with (INR n) in T3 by (field; lra). lra.
Qed.

(** every variable has a place, and no two have the same *)
Theorem positions_distinct variables : variables <> [] -> NoDup variables -> (Z.of_nat (length variables) < 2 ^ 53)%Z ->
  exists d, set_positions variables = Ok d /\ (forall v, In v variables -> exists p, dget v d = Some p) /\ (forall v, ~ In v variables -> dget v d = None) /\
    forall v u p, In v variables -> In u variables -> dget v d = Some p -> dget u d = Some p -> v = u.
Proof.
  intros Hne ND Hb. unfold set_positions. assert (Hn : 1 <= length variables) by (destruct variables; [contradiction|cbn; lia]).
  destruct (n_cols_ok _ Hn Hb) as (c & Ec & Hc). destruct (n_rows_ok _ c Hn Hb Hc) as (r & Er & Hr & Hr0). rewrite Ec. cbn [rbind]. rewrite Er. cbn [rbind].
  assert (HL : length variables <= length (pos_list r c)).
  { rewrite pos_list_length. apply Nat2Z.inj_le. rewrite Nat2Z.inj_mul, !Z2Nat.id by lia. exact Hr. }
  destruct (assign_ok variables (pos_list r c) [] ND HL) as (d & Ed & H1 & H2). exists d. split; [exact Ed|]. split; [|split].
  - intros v Hv. apply In_nth_error in Hv as [k Hk]. rewrite (H1 k v Hk). destruct (nth_error (pos_list r c) k) as [p|] eqn:E; [eauto|]. apply nth_error_None in E.
    assert (k < length variables) by (apply nth_error_Some; congruence). lia.
  - intros v Hv. rewrite (H2 v Hv). reflexivity.
  - intros v u p Hv Hu Ev Eu. apply In_nth_error in Hv as [k Hk]. apply In_nth_error in Hu as [l Hl]. rewrite (H1 k v Hk) in Ev. rewrite (H1 l u Hl) in Eu.
    assert (k = l); [|congruence]. eapply (proj1 (NoDup_nth_error _) (pos_list_nodup r c)); [apply nth_error_Some; rewrite Ev; discriminate|congruence].
Qed.

Lemma no_variables : set_positions [] = Raise ZeroDivisionError.
Proof. vm_compute. reflexivity. Qed.

(** ** plot_bn *)
Lemma add_all_spec {A} (eqb : A -> A -> bool) (Heq : forall x y, eqb x y = true <-> x = y) l : forall acc, NoDup acc ->
  NoDup (fold_left (add_new eqb) l acc) /\ forall x, In x (fold_left (add_new eqb) l acc) <-> In x acc \/ In x l.
Proof.
  induction l as [|y l IH]; intros acc ND; cbn [fold_left]; [split; [exact ND|cbn; tauto]|]. unfold add_new at 2 4.
  destruct (existsb (eqb y) acc) eqn:E.
  - destruct (IH acc ND) as [H1 H2]. split; [exact H1|]. intros x. rewrite H2. cbn. apply existsb_exists in E as (z & Hz & Ez). apply Heq in Ez. subst z. intuition congruence.
  - assert (Hy : ~ In y acc).
    { intros Hy. assert (existsb (eqb y) acc = true); [|congruence]. apply existsb_exists. exists y. split; [exact Hy|]. apply Heq. reflexivity. }
    destruct (IH (acc ++ [y])) as [H1 H2]. { apply nodup_app; [exact ND|repeat constructor; intros []|]. intros x Hx [<-|[]]. exact (Hy Hx). }
    split; [exact H1|]. intros x. rewrite H2, in_app_iff. cbn. tauto.
Qed.
Lemma arc_eqb_eq a b : arc_eqb a b = true <-> a = b.
Proof.
  unfold arc_eqb. rewrite andb_true_iff, !String.eqb_eq. destruct a, b; cbn. split; [intros [-> ->]; reflexivity|]. intros E. split; congruence.
Qed.
Lemma nodes_spec arcs vs : NoDup (nodes_of arcs vs) /\ forall v, In v (nodes_of arcs vs) <-> In v vs \/ exists a, In a arcs /\ (v = fst a \/ v = snd a).
Proof.
  unfold nodes_of. destruct (add_all_spec String.eqb String.eqb_eq vs [] (NoDup_nil _)) as [H1 H2].
  destruct (add_all_spec String.eqb String.eqb_eq (flat_map (fun a => [fst a; snd a]) arcs) _ H1) as [H3 H4]. split; [exact H3|].
  intros v. rewrite H4, H2, in_flat_map. cbn. split.
  - intros [[[]|H]|(a & Ha & [H|[H|[]]])]; [left; exact H|right; exists a; split; [exact Ha|left; congruence]|right; exists a; split; [exact Ha|right; congruence]].
  - intros [H|(a & Ha & [H|H])]; [left; right; exact H|right; exists a; split; [exact Ha|left; congruence]|right; exists a; split; [exact Ha|right; left; congruence]].
Qed.

Lemma edges_spec arcs vs : NoDup (edges_of arcs vs) /\ forall a, In a (edges_of arcs vs) <-> In a arcs.
Proof.
  destruct (add_all_spec arc_eqb arc_eqb_eq arcs [] (NoDup_nil _)) as [A1 A2]. destruct (nodes_spec arcs vs) as [N1 N2]. unfold edges_of. split.
  - clear N2. induction N1 as [|u l Hu _ IH]; cbn [flat_map]; [constructor|]. apply nodup_app; [apply NoDup_filter, A1|exact IH|].
    intros a Ha Hb. apply filter_In in Ha as [_ Ha]. apply String.eqb_eq in Ha. apply in_flat_map in Hb as (v & Hv & Hb).
    apply filter_In in Hb as [_ Hb]. apply String.eqb_eq in Hb. congruence.
  - intros a. rewrite in_flat_map. split.
    + intros (u & _ & H). apply filter_In in H as [H _]. apply A2 in H as [[]|H]. exact H.
    + intros H. exists (fst a). split; [apply N2; right; exists a; auto|]. apply filter_In. split; [apply A2; right; exact H|apply String.eqb_refl].
Qed.

Lemma place_all d l : match rmapM (place d) l with
  | Ok out => map fst out = l /\ forall v p, In (v, p) out -> dget v d = Some p
  | Raise e => e = PlainException /\ exists v, In v l /\ dget v d = None end.
Proof.
  induction l as [|v l IH]; cbn [rmapM]; [split; [reflexivity|intros v p []]|]. unfold place at 1. destruct (dget v d) as [p|] eqn:E; cbn [rbind].
  - destruct (rmapM (place d) l) as [out|e]; cbn [rbind].
    + destruct IH as [I1 I2]. split; [cbn; rewrite I1; reflexivity|]. intros u q [H|H]; [assert (u = v /\ q = p) as [-> ->] by (split; congruence); exact E|exact (I2 u q H)].
    + destruct IH as [I1 (u & Hu & Eu)]. split; [exact I1|]. exists u. split; [right; exact Hu|exact Eu].
  - split; [reflexivity|]. exists v. split; [left; reflexivity|exact E].
Qed.

(** With the default layout: drawn iff the arcs join listed variables; then each variable is drawn
    once, at its own place, and each arc once. *)
Theorem plot_default arcs vs pos : vs <> [] -> NoDup vs -> (Z.of_nat (length vs) < 2 ^ 53)%Z -> pos = None \/ pos = Some [] ->
  match plot_bn arcs vs pos with
  | Ok (drawn, edges) => (forall a, In a arcs -> In (fst a) vs /\ In (snd a) vs) /\ NoDup (map fst drawn) /\ NoDup (map snd drawn) /\
      (forall v, In v (map fst drawn) <-> In v vs) /\ NoDup edges /\ forall a, In a edges <-> In a arcs
  | Raise e => e = PlainException /\ exists a, In a arcs /\ ~ (In (fst a) vs /\ In (snd a) vs) end.
Proof.
  intros Hne ND Hb Hpos. destruct (positions_distinct vs Hne ND Hb) as (d & Ed & H1 & H2 & H3).
  replace (plot_bn arcs vs pos) with (plot_bn arcs vs None) by (destruct Hpos as [-> | ->]; reflexivity). unfold plot_bn. rewrite Ed. cbn [rbind]. pose proof (place_all d (nodes_of arcs vs)) as HP. destruct (nodes_spec arcs vs) as [N1 N2].
  destruct (rmapM (place d) (nodes_of arcs vs)) as [drawn|e]; cbn [rbind].
  - destruct HP as [P1 P2]. assert (HV : forall v, In v (map fst drawn) -> In v vs).
    { intros v Hv. apply in_map_iff in Hv as ((u & p) & Eu & Hu). cbn in Eu. subst u. apply P2 in Hu. destruct (in_dec string_dec v vs) as [Hi|Hi]; [exact Hi|]. rewrite (H2 v Hi) in Hu. discriminate. }
    assert (HD : NoDup (map fst drawn)) by (rewrite P1; exact N1).
    destruct (edges_spec arcs vs) as [A1 A2].
    refine (conj _ (conj HD (conj _ (conj _ (conj A1 A2))))).
    + intros a Ha. split; apply HV; rewrite P1; apply N2; right; exists a; auto.
    + assert (HP : forall v p, In (v, p) drawn -> dget v d = Some p /\ In v vs) by (intros v p Hv; split; [exact (P2 v p Hv)|apply HV; apply (in_map fst) in Hv; exact Hv]).
      clear - HD HP H3. induction drawn as [|[v p] l IH]; [constructor|]. cbn in *. inversion HD as [|? ? Hv HD']; subst. constructor; [|apply IH; [exact HD'|intros; apply HP; right; assumption]].
      intros Hin. apply in_map_iff in Hin as ((u & q) & Eq & Hu). cbn in Eq. subst q. apply Hv. destruct (HP v p (or_introl eq_refl)) as [G1 G2]. destruct (HP u p (or_intror Hu)) as [G3 G4].
      rewrite (H3 v u p G2 G4 G1 G3). apply (in_map fst) in Hu. exact Hu.
    + intros v. split; [exact (HV v)|]. intros Hv. rewrite P1. apply N2. left. exact Hv.
  - destruct HP as [P1 (v & Hv & En)]. split; [exact P1|]. apply N2 in Hv as [Hv|(a & Ha & Hv)].
    + destruct (H1 v Hv) as (p & Ep). congruence.
    + exists a. split; [exact Ha|]. intros [G1 G2]. destruct Hv as [-> | ->]; [destruct (H1 _ G1)|destruct (H1 _ G2)]; congruence.
Qed.

(** ** Arcs over 0..n-1 *)
Theorem adjacency_plain n arcs :
  (forall a, In a arcs -> exists i j, (i < n)%nat /\ (j < n)%nat /\ a = (At (Z.of_nat i), At (Z.of_nat j))) ->
  exists m, arcs2adj_mat arcs (Z.of_nat n) = Ok m /\ length m = n /\ (forall i, (i < n)%nat -> length (nth i m []) = n) /\
    forall i j, (i < n)%nat -> (j < n)%nat ->
      (In (At (Z.of_nat i), At (Z.of_nat j)) arcs -> nth j (nth i m []) (Z2f 0) = Z2f 1) /\
      (~ In (At (Z.of_nat i), At (Z.of_nat j)) arcs -> nth j (nth i m []) (Z2f 0) = Z2f 0).
Proof.
  intros H. pose proof (adjacency n arcs) as A. destruct (arcs2adj_mat arcs (Z.of_nat n)) as [m|e].
  - destruct A as (_ & Hl & Hr & He). exists m. refine (conj eq_refl (conj Hl (conj Hr _))). intros i j Hi Hj. destruct (He i j Hi Hj) as [H1 H0].
    assert (G : joined n arcs i j <-> In (At (Z.of_nat i), At (Z.of_nat j)) arcs).
    { split.
      - intros (a & Ha & (p & Ep & Op & _) & (q & Eq & Oq & _)). destruct (H a Ha) as (i' & j' & Li & Lj & ->). cbn [fst snd] in *.
        assert (p = Z.of_nat i') by congruence. assert (q = Z.of_nat j') by congruence. subst p q. assert (i' = i) by lia. assert (j' = j) by lia. subst. exact Ha.
      - intros Ha. exists (At (Z.of_nat i), At (Z.of_nat j)). refine (conj Ha (conj _ _)); eexists; (refine (conj eq_refl (conj (or_introl eq_refl) _))); assumption. }
    split; intros Ha; [apply H1, G, Ha|apply H0; intros K; apply Ha, G, K].
  - destruct A as [_ A]. exfalso. apply A. apply Forall_forall. intros a Ha. destruct (H a Ha) as (i & j & Li & Lj & ->).
    split; cbn [fst snd]; unfold in_range; eexists; (split; [reflexivity|]); lia.
Qed.

Theorem negative_index : exists n i j m, ~ (0 <= i < Z.of_nat n)%Z /\ arcs2adj_mat [(At i, At j)] (Z.of_nat n) = Ok m.
Proof.
  exists 2, (-1)%Z, 0%Z. pose proof (adjacency 2 [(At (-1)%Z, At 0%Z)]) as A. destruct (arcs2adj_mat [(At (-1)%Z, At 0%Z)] (Z.of_nat 2)) as [m|e].
  - exists m. split; [lia|reflexivity].
  - exfalso. destruct A as [_ A]. apply A. constructor; [|constructor]. split; cbn [fst snd]; unfold in_range; eexists; (split; [reflexivity|]); lia.
Qed.
(** With given positions: drawn iff every variable and every end of an arc has one; then each is
    drawn once, where the caller put it, and each arc once. *)
Theorem plot_given arcs vs d : d <> [] ->
  match plot_bn arcs vs (Some d) with
  | Ok (drawn, edges) => NoDup (map fst drawn) /\ (forall v, In v (map fst drawn) <-> In v vs \/ exists a, In a arcs /\ (v = fst a \/ v = snd a)) /\
      (forall v p, In (v, p) drawn -> dget v d = Some p) /\ NoDup edges /\ forall a, In a edges <-> In a arcs
  | Raise e => e = PlainException /\ exists v, (In v vs \/ exists a, In a arcs /\ (v = fst a \/ v = snd a)) /\ dget v d = None end.
Proof.
  intros Hne. unfold plot_bn. destruct d as [|x d]; [congruence|]. cbn [rbind]. set (D := x :: d). pose proof (place_all D (nodes_of arcs vs)) as HP. destruct (nodes_spec arcs vs) as [N1 N2].
  destruct (rmapM (place D) (nodes_of arcs vs)) as [drawn|e]; cbn [rbind].
  - destruct HP as [P1 P2]. destruct (edges_spec arcs vs) as [A1 A2].
    rewrite P1. exact (conj N1 (conj N2 (conj P2 (conj A1 A2)))).
  - destruct HP as [P1 (v & Hv & En)]. split; [exact P1|]. exists v. split; [apply N2, Hv|exact En].
Qed.
