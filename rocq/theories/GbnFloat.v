(** What GBN.get_mu and get_sigma compute in binary64: the equations of the network hold for the
    numbers returned, up to rounding errors. *)
From Coq Require Import String List ZArith Bool Lia Reals Lra.
From Flocq Require Import Core IEEE754.BinarySingleNaN Relative Plus_error.
From Verif Require Import PyBase B64 B64More Interval Models Gbn GbnSpec GbnThms GbnSample FloatSum.
Import ListNotations.
Open Scope R_scope.

(** ** Any arithmetic: the order of the operations *)
Section Any.
Context {T : Type} (o : ops T).

(** a + f p1 c1 + f p2 c2 + ..., from the left *)
Fixpoint acc (f : string -> T -> T) (ps : list string) (cs : list T) (a : T) : T :=
  match ps, cs with
  | p :: ps', c :: cs' => acc f ps' cs' (o_add o a (f p c))
  | _, _ => a
  end.

Lemma acc_ext f g ps cs a : (forall p c, In p ps -> f p c = g p c) -> acc f ps cs a = acc g ps cs a.
Proof.
  revert cs a. induction ps as [|p ps IH]; intros [|c cs] a H; try reflexivity. cbn [acc]. rewrite (H p c) by (left; reflexivity).
  apply IH. intros q d Hq. apply H. right. exact Hq.
Qed.

Context (N : network T) (HD : dag N).
Let n := length (n_order N).
Let par v := d_parents (n_cpd N v).
Let coef v := tl (d_beta (n_cpd N v)).

Lemma mu_terms_acc i ps bs mu (m : string -> T) : (i < length mu)%nat -> length bs = length ps ->
  (forall p, In p ps -> index p (n_order N) = Ok (pos N p) /\ (pos N p < i)%nat /\ vget o (pos N p) mu = m p) ->
  exists mu', terms (fun p c mu => rbind (index p (n_order N)) (fun k => Ok (vset i (o_add o (vget o i mu) (o_mul o c (vget o k mu))) mu))) ps bs mu = Ok mu' /\
    length mu' = length mu /\ vget o i mu' = acc (fun p c => o_mul o c (m p)) ps bs (vget o i mu) /\ forall k, k <> i -> vget o k mu' = vget o k mu.
Proof.
  revert ps mu. induction bs as [|b bs IH]; intros [|p ps] mu Hi Hl Hp; try discriminate.
  - exists mu. split; [reflexivity|]. split; [reflexivity|]. split; reflexivity.
  - cbn [terms]. destruct (Hp p (or_introl eq_refl)) as (Ei & Hk & Hv). rewrite Ei. cbn [rbind].
    destruct (IH ps (vset i (o_add o (vget o i mu) (o_mul o b (vget o (pos N p) mu))) mu)) as (mu' & E' & L' & V' & O').
    + rewrite vset_length. exact Hi.
    + cbn in Hl. lia.
    + intros q Hq. destruct (Hp q (or_intror Hq)) as (A1 & A2 & A3). split; [exact A1|]. split; [exact A2|].
      unfold vget. rewrite vset_other by lia. exact A3.
    + exists mu'. split; [exact E'|]. split; [rewrite L', vset_length; reflexivity|]. split.
      * rewrite V'. cbn [acc]. f_equal. unfold vget at 1. rewrite vset_same by exact Hi. rewrite Hv. reflexivity.
      * intros k Hn. rewrite O' by exact Hn. unfold vget. apply vset_other. lia.
Qed.

Lemma all_mu_acc : exists mu, all_mu o N = Ok mu /\ length mu = n /\
  forall k v, nth_error (n_order N) k = Some v ->
    vget o k mu = acc (fun p c => o_mul o c (vget o (pos N p) mu)) (par v) (coef v) (hd (zero o) (d_beta (n_cpd N v))).
Proof.
  unfold all_mu. fold n.
  destruct (each_seq (mu_node o N) (fun i mu => length mu = n /\ forall k v, (k < i)%nat -> nth_error (n_order N) k = Some v ->
      vget o k mu = acc (fun p c => o_mul o c (vget o (pos N p) mu)) (par v) (coef v) (hd (zero o) (d_beta (n_cpd N v))))
    0 n (repeat (zero o) n)) as (mu & E & L & H).
  - split; [apply repeat_length|]. intros; lia.
  - intros i mu Hi [L H]. destruct (node_at N i) as (v & Hv & Hn); [fold n; lia|]. unfold mu_node. rewrite Hn.
    pose proof (dag_length N i v HD Hv) as Hl. pose proof (dag_beta N i v HD Hv) as Hb. unfold coef, par in *.
    destruct (d_beta (n_cpd N v)) as [|b0 bs] eqn:Eb; [congruence|]. cbn [hd tl] in *.
    destruct (mu_terms_acc i (d_parents (n_cpd N v)) bs (vset i b0 mu) (fun p => vget o (pos N p) mu)) as (mu' & E' & L' & V' & O').
    + rewrite vset_length. lia.
    + exact Hl.
    + intros p Hp. destruct (dag_parent N i v p HD Hv Hp) as (A1 & A2 & A3). split; [exact A1|]. split; [exact A2|].
      unfold vget. rewrite vset_other by lia. reflexivity.
    + assert (K : forall k, k <> i -> vget o k mu' = vget o k mu).
      { intros k Hk. rewrite O' by exact Hk. unfold vget. rewrite vset_other by lia. reflexivity. }
      exists mu'. split; [exact E'|]. split; [rewrite L', vset_length; exact L|]. intros k w Hk Hw.
      rewrite (acc_ext _ (fun p c => o_mul o c (vget o (pos N p) mu))).
      2:{ intros p c Hp. destruct (dag_parent N k w p HD Hw Hp) as (_ & A2 & _). rewrite K by lia. reflexivity. }
      destruct (Nat.eq_dec k i) as [->|Hki].
      * assert (w = v) by congruence. subst w. rewrite V', Eb. cbn [hd tl]. f_equal. unfold vget. rewrite vset_same by lia. reflexivity.
      * rewrite K by exact Hki. apply H; [lia|exact Hw].
  - exists mu. split; [exact E|]. split; [exact L|]. intros k v Hk. apply H; [|exact Hk].
    apply nth_error_Some. rewrite Hk. discriminate.
Qed.

Lemma var_terms_acc i ps bs m (f : string -> T) : square n m -> (i < n)%nat -> length bs = length ps ->
  (forall p, In p ps -> index p (n_order N) = Ok (pos N p) /\ (pos N p < i)%nat /\ mget o (pos N p) (pos N p) m = f p) ->
  exists m', terms (fun p c m => rbind (index p (n_order N)) (fun k => Ok (mset i i (o_add o (mget o i i m) (o_mul o (mget o k k m) (o_mul o c c))) m))) ps bs m = Ok m' /\
    square n m' /\ mget o i i m' = acc (fun p c => o_mul o (f p) (o_mul o c c)) ps bs (mget o i i m) /\ forall a b, (a <> i \/ b <> i) -> mget o a b m' = mget o a b m.
Proof.
  revert ps m. induction bs as [|b bs IH]; intros [|p ps] m Sm Hi Hl Hp; try discriminate.
  - exists m. split; [reflexivity|]. split; [exact Sm|]. split; reflexivity.
  - cbn [terms]. destruct (Hp p (or_introl eq_refl)) as (Ei & Hk & Hv). rewrite Ei. cbn [rbind].
    set (x := o_add o (mget o i i m) (o_mul o (mget o (pos N p) (pos N p) m) (o_mul o b b))).
    destruct (IH ps (mset i i x m)) as (m' & E' & S' & V' & O').
    + apply square_mset. exact Sm.
    + exact Hi.
    + cbn in Hl. lia.
    + intros q Hq. destruct (Hp q (or_intror Hq)) as (A1 & A2 & A3). split; [exact A1|]. split; [exact A2|].
      rewrite (mget_other o n) by (try assumption; lia). exact A3.
    + exists m'. split; [exact E'|]. split; [exact S'|]. split.
      * rewrite V', (mget_same o n) by assumption. unfold x. rewrite Hv. reflexivity.
      * intros a c Hn. rewrite O' by exact Hn. apply (mget_other o n); assumption.
Qed.

Lemma cov_terms_acc i j ps bs m (f : string -> T) : square n m -> (i < n)%nat -> (j < n)%nat -> length bs = length ps ->
  (forall p, In p ps -> index p (n_order N) = Ok (pos N p) /\ (pos N p < j)%nat /\ mget o i (pos N p) m = f p) ->
  exists m', terms (fun p c m => rbind (index p (n_order N)) (fun k => Ok (mset i j (o_add o (mget o i j m) (o_mul o c (mget o i k m))) m))) ps bs m = Ok m' /\
    square n m' /\ mget o i j m' = acc (fun p c => o_mul o c (f p)) ps bs (mget o i j m) /\ forall a b, (a <> i \/ b <> j) -> mget o a b m' = mget o a b m.
Proof.
  revert ps m. induction bs as [|b bs IH]; intros [|p ps] m Sm Hi Hj Hl Hp; try discriminate.
  - exists m. split; [reflexivity|]. split; [exact Sm|]. split; reflexivity.
  - cbn [terms]. destruct (Hp p (or_introl eq_refl)) as (Ei & Hk & Hv). rewrite Ei. cbn [rbind].
    set (x := o_add o (mget o i j m) (o_mul o b (mget o i (pos N p) m))).
    destruct (IH ps (mset i j x m)) as (m' & E' & S' & V' & O').
    + apply square_mset. exact Sm.
    + exact Hi.
    + exact Hj.
    + cbn in Hl. lia.
    + intros q Hq. destruct (Hp q (or_intror Hq)) as (A1 & A2 & A3). split; [exact A1|]. split; [exact A2|].
      rewrite (mget_other o n) by (try assumption; lia). exact A3.
    + exists m'. split; [exact E'|]. split; [exact S'|]. split.
      * rewrite V', (mget_same o n) by assumption. unfold x. rewrite Hv. reflexivity.
      * intros a c Hn. rewrite O' by exact Hn. apply (mget_other o n); assumption.
Qed.

Definition diag_eq (m : list (list T)) (k : nat) (v : string) : Prop :=
  mget o k k m = acc (fun p c => o_mul o (mget o (pos N p) (pos N p) m) (o_mul o c c)) (par v) (coef v) (d_var (n_cpd N v)).

Lemma diagonal_acc : exists m, each (var_node o N) (seq 0 n) (repeat (repeat (zero o) n) n) = Ok m /\ square n m /\
  (forall a b, a <> b -> mget o a b m = zero o) /\
  (forall k v, nth_error (n_order N) k = Some v -> diag_eq m k v).
Proof.
  destruct (each_seq (var_node o N) (fun i m => square n m /\ (forall a b, a <> b -> mget o a b m = zero o) /\
     (forall k v, (k < i)%nat -> nth_error (n_order N) k = Some v -> diag_eq m k v))
     0%nat n (repeat (repeat (zero o) n) n)) as (m & E & Sm & Z & H).
  - split; [apply square_zero|]. split; [intros; apply (mget_zero o)|intros; lia].
  - intros i m Hi (Sm & Z & H). destruct (node_at N i) as (v & Hv & Hn); [fold n; lia|]. unfold var_node. rewrite Hn.
    destruct (var_terms_acc i (par v) (coef v) (mset i i (d_var (n_cpd N v)) m) (fun p => mget o (pos N p) (pos N p) m)) as (m' & E' & S' & V' & O').
    + apply square_mset. exact Sm.
    + lia.
    + exact (dag_length N i v HD Hv).
    + intros p Hp. destruct (dag_parent N i v p HD Hv Hp) as (A1 & A2 & _). split; [exact A1|]. split; [exact A2|].
      apply (mget_other o n); [exact Sm|lia|lia].
    + assert (K : forall a b, (a <> i \/ b <> i) -> mget o a b m' = mget o a b m).
      { intros a b Hab. rewrite O' by exact Hab. apply (mget_other o n); [exact Sm|lia|exact Hab]. }
      exists m'. split; [exact E'|]. split; [exact S'|]. split; [intros a b Hab; rewrite K by lia; apply Z; exact Hab|].
      intros k w Hk Hw. unfold diag_eq. rewrite (acc_ext _ (fun p c => o_mul o (mget o (pos N p) (pos N p) m) (o_mul o c c))).
      2:{ intros p c Hp. destruct (dag_parent N k w p HD Hw Hp) as (_ & A2 & _). rewrite K by lia. reflexivity. }
      destruct (Nat.eq_dec k i) as [->|Hki].
      * assert (w = v) by congruence. subst w. rewrite V'. rewrite (mget_same o n) by (try assumption; lia). reflexivity.
      * rewrite K by lia. apply H; [lia|exact Hw].
  - exists m. split; [exact E|]. split; [exact Sm|]. split; [exact Z|]. intros k v Hk. apply H; [|exact Hk].
    apply nth_error_Some. rewrite Hk. discriminate.
Qed.

Lemma cov_node_acc i j v m : square n m -> (i < j)%nat -> nth_error (n_order N) j = Some v ->
  exists m', cov_node o N i j m = Ok m' /\ square n m' /\ mget o j i m' = mget o i j m' /\
    mget o i j m' = acc (fun p c => o_mul o c (mget o i (pos N p) m)) (par v) (coef v) (mget o i j m) /\
    forall a b, ~ (a = i /\ b = j) -> ~ (a = j /\ b = i) -> mget o a b m' = mget o a b m.
Proof.
  intros Sm Hij Hv. assert (Hj : (j < n)%nat) by (apply nth_error_Some; rewrite Hv; discriminate).
  unfold cov_node. rewrite (nth_error_nth _ _ EmptyString Hv).
  destruct (cov_terms_acc i j (par v) (coef v) m (fun p => mget o i (pos N p) m)) as (m' & E' & S' & V' & O').
  - exact Sm.
  - lia.
  - exact Hj.
  - exact (dag_length N j v HD Hv).
  - intros p Hp. destruct (dag_parent N j v p HD Hv Hp) as (A1 & A2 & _). split; [exact A1|]. split; [exact A2|reflexivity].
  - fold (par v) (coef v). rewrite E'. cbn [rbind]. eexists. split; [reflexivity|]. split; [apply square_mset; exact S'|].
    assert (F : mget o i j (mset j i (mget o i j m') m') = mget o i j m') by (apply (mget_other o n); [exact S'|exact Hj|lia]).
    split; [rewrite F; apply (mget_same o n); [exact S'|exact Hj|lia]|]. split; [rewrite F; exact V'|].
    intros a b H1 H2. rewrite (mget_other o n) by (try assumption; lia). apply O'. lia.
Qed.

Definition cov_eq (m : list (list T)) (a b : nat) (v : string) : Prop :=
  mget o a b m = acc (fun p c => o_mul o c (mget o a (pos N p) m)) (par v) (coef v) (zero o) /\ mget o b a m = mget o a b m.

Definition row_acc (m0 : list (list T)) (i j : nat) (m : list (list T)) : Prop :=
  square n m /\ (forall k, mget o k k m = mget o k k m0) /\
  (forall a b v, (a < b)%nat -> nth_error (n_order N) b = Some v -> treated i j a b -> cov_eq m a b v) /\
  (forall a b, (a < b)%nat -> ~ treated i j a b -> mget o a b m = zero o).

Lemma row_acc_step m0 i j m : (i < j)%nat -> (j < n)%nat -> row_acc m0 i j m ->
  exists m', cov_node o N i j m = Ok m' /\ row_acc m0 i (S j) m'.
Proof.
  intros Hij Hj (Sm & D & C & Z). destruct (node_at N j Hj) as (v & Hv & _).
  destruct (cov_node_acc i j v m Sm Hij Hv) as (m' & E & S' & Y & V & K).
  exists m'. split; [exact E|]. split; [exact S'|]. split; [intros k; rewrite K by lia; apply D|]. split.
  - intros a b w Hab Hw Ht. unfold cov_eq.
    rewrite (acc_ext _ (fun p c => o_mul o c (mget o a (pos N p) m))).
    2:{ intros p c Hp. destruct (dag_parent N b w p HD Hw Hp) as (_ & A2 & _). rewrite K; [reflexivity| |]; unfold treated in Ht; lia. }
    destruct (Nat.eq_dec a i) as [->|Hai]; [destruct (Nat.eq_dec b j) as [->|Hbj]|].
    + assert (w = v) by congruence. subst w. split; [|exact Y]. rewrite V, (Z i j); [reflexivity|exact Hij|unfold treated; lia].
    + rewrite (K i b), (K b i) by lia. apply C; [exact Hab|exact Hw|unfold treated in *; lia].
    + rewrite (K a b), (K b a) by lia. apply C; [exact Hab|exact Hw|unfold treated in *; lia].
  - intros a b Hab Ht. rewrite K by (unfold treated in Ht; lia). apply Z; [exact Hab|unfold treated in *; lia].
Qed.

Lemma all_sigma_acc : exists m, all_sigma o N = Ok m /\ square n m /\
  (forall k v, nth_error (n_order N) k = Some v -> diag_eq m k v) /\
  (forall a b v, (a < b)%nat -> nth_error (n_order N) b = Some v -> cov_eq m a b v).
Proof.
  unfold all_sigma. fold n. destruct diagonal_acc as (m0 & E0 & S0 & Z0 & D0). rewrite E0. cbn [rbind].
  destruct (each_seq (fun i => each (fun j => cov_node o N i j) (seq (S i) (n - S i))) (fun i m => row_acc m0 i (S i) m) 0%nat n m0) as (m & E & Sm & D & C & Z).
  - split; [exact S0|]. split; [reflexivity|]. split; [intros a b v Hab _ Ht; unfold treated in Ht; lia|]. intros a b Hab _. apply Z0. lia.
  - intros i m Hi HI.
    destruct (each_seq (fun j => cov_node o N i j) (fun j m => row_acc m0 i j m) (S i) (n - S i) m HI) as (m' & E' & S' & D' & C' & Z').
    + intros j m1 Hj H1. apply row_acc_step; [lia|lia|exact H1].
    + exists m'. split; [exact E'|]. split; [exact S'|]. split; [exact D'|]. split.
      * intros a b v Hab Hv Ht. apply C'; [exact Hab|exact Hv|]. assert (b < n)%nat by (apply nth_error_Some; rewrite Hv; discriminate). unfold treated in *. lia.
      * intros a b Hab Ht. apply Z'; [exact Hab|]. unfold treated in *. lia.
  - exists m. split; [exact E|]. split; [exact Sm|]. split.
    + intros k v Hk. unfold diag_eq. rewrite D, (D0 k v Hk). apply acc_ext. intros p c _. rewrite D. reflexivity.
    + intros a b v Hab Hv. apply C; [exact Hab|exact Hv|]. assert (b < n)%nat by (apply nth_error_Some; rewrite Hv; discriminate). unfold treated. lia.
Qed.

End Any.

(** ** Binary64 *)
(** A finite result has finite operands and is the rounded exact result. *)
Lemma fadd_back (a b : f64) : isfin (fadd a b) = true -> isfin a = true /\ isfin b = true /\ B2R (fadd a b) = rnd (B2R a + B2R b).
Proof.
  intros H. assert (F : isfin a = true /\ isfin b = true).
  { destruct a as [sa|sa| |sa ma ea Ba], b as [sb|sb| |sb mb eb Bb]; try (split; reflexivity); try discriminate H; destruct sa, sb; discriminate H. }
  destruct F as [Fa Fb]. split; [exact Fa|]. split; [exact Fb|].
  pose proof (Bplus_correct 53 1024 eq_refl eq_refl mode_NE a b Fa Fb) as C.
  destruct (Rlt_bool _ _) in C; [apply C|]. destruct C as [C _].
  exfalso. unfold fadd in H. destruct (Bplus mode_NE a b) as [s|s| |s m e B]; try discriminate H; destruct (Bsign a); discriminate C.
Qed.
Lemma fmul_back (a b : f64) : isfin (fmul a b) = true -> isfin a = true /\ isfin b = true /\ B2R (fmul a b) = rnd (B2R a * B2R b).
Proof.
  intros H. assert (F : isfin a = true /\ isfin b = true).
  { destruct a as [sa|sa| |sa ma ea Ba], b as [sb|sb| |sb mb eb Bb]; try (split; reflexivity); try discriminate H; destruct sa, sb; discriminate H. }
  destruct F as [Fa Fb]. split; [exact Fa|]. split; [exact Fb|].
  pose proof (Bmult_correct 53 1024 eq_refl eq_refl mode_NE a b) as C.
  destruct (Rlt_bool _ _) in C; [apply C|].
  exfalso. unfold fmul in H. destruct (Bmult mode_NE a b) as [s|s| |s m e B]; try discriminate H; destruct (xorb (Bsign a) (Bsign b)); discriminate C.
Qed.

Lemma fadd_back_rel (a b : f64) : isfin (fadd a b) = true ->
  isfin a = true /\ isfin b = true /\ exists e, Rabs e <= u /\ B2R (fadd a b) = (B2R a + B2R b) * (1 + e).
Proof.
  intros H. destruct (fadd_back a b H) as (Fa & Fb & E). split; [exact Fa|]. split; [exact Fb|].
  destruct (FLT_plus_error_N_ex radix2 (3 - 1024 - 53) 53 (fun n => negb (Z.even n)) (B2R a) (B2R b) (generic_format_B2R 53 1024 a) (generic_format_B2R 53 1024 b)) as (e & He & Hr).
  exists e. split; [|rewrite E; exact Hr]. rewrite u_ro_value in He. eapply Rle_trans; [exact He|]. pose proof u_pos.
  apply (Rmult_le_reg_r (1 + u)); [lra|]. unfold Rdiv. rewrite Rmult_assoc, Rinv_l by lra. pose proof (Rmult_le_pos u u ltac:(lra) ltac:(lra)). lra.
Qed.
Lemma fmul_back_rel (a b : f64) : isfin (fmul a b) = true ->
  isfin a = true /\ isfin b = true /\ Rabs (B2R (fmul a b) - B2R a * B2R b) <= u * Rabs (B2R a * B2R b) + eta.
Proof.
  intros H. destruct (fmul_back a b H) as (Fa & Fb & E). split; [exact Fa|]. split; [exact Fb|]. rewrite E.
  destruct (rnd_rel (B2R a * B2R b)) as (e & t & He & Ht & ->).
  replace (B2R a * B2R b * (1 + e) + t - B2R a * B2R b) with (B2R a * B2R b * e + t) by ring.
  eapply Rle_trans; [apply Rabs_triang|]. rewrite Rabs_mult, Rmult_comm. apply Rplus_le_compat; [|exact Ht].
  apply Rmult_le_compat_r; [apply Rabs_pos|exact He].
Qed.

(** Sums over the parents of a node. *)
Fixpoint over {A} (g : string -> A -> R) (ps : list string) (cs : list A) : R :=
  match ps, cs with p :: ps', c :: cs' => g p c + over g ps' cs' | _, _ => 0 end.

Lemma over_le {A} (g h : string -> A -> R) ps cs : (forall p c, In (p, c) (combine ps cs) -> g p c <= h p c) -> over g ps cs <= over h ps cs.
Proof.
  revert cs. induction ps as [|p ps IH]; intros [|c cs] H; cbn [over]; try lra.
  apply Rplus_le_compat; [apply H; left; reflexivity|apply IH; intros q d Hq; apply H; right; exact Hq].
Qed.
Lemma over_abs {A} (g : string -> A -> R) ps cs : Rabs (over g ps cs) <= over (fun p c => Rabs (g p c)) ps cs.
Proof.
  revert cs. induction ps as [|p ps IH]; intros [|c cs]; cbn [over]; try (rewrite Rabs_R0; lra).
  eapply Rle_trans; [apply Rabs_triang|]. apply Rplus_le_compat_l, IH.
Qed.
Lemma over_sub {A} (g h : string -> A -> R) ps cs : over g ps cs - over h ps cs = over (fun p c => g p c - h p c) ps cs.
Proof. revert cs. induction ps as [|p ps IH]; intros [|c cs]; cbn [over]; try ring. rewrite <- IH. ring. Qed.
Lemma over_add {A} (g h : string -> A -> R) ps cs : over (fun p c => g p c + h p c) ps cs = over g ps cs + over h ps cs.
Proof. revert cs. induction ps as [|p ps IH]; intros [|c cs]; cbn [over]; try ring. rewrite IH. ring. Qed.
Lemma over_scal {A} k (g : string -> A -> R) ps cs : over (fun p c => k * g p c) ps cs = k * over g ps cs.
Proof. revert cs. induction ps as [|p ps IH]; intros [|c cs]; cbn [over]; try ring. rewrite IH. ring. Qed.
Lemma over_pos {A} (g : string -> A -> R) ps cs : (forall p c, 0 <= g p c) -> 0 <= over g ps cs.
Proof. intros H. revert cs. induction ps as [|p ps IH]; intros [|c cs]; cbn [over]; try lra. pose proof (H p c). pose proof (IH cs). lra. Qed.

Section Rounded.
Context (s : list f64 -> f64).
Let o := b64_ops s.

Lemma acc_err (f : string -> f64 -> f64) ps : forall cs a, length cs = length ps -> isfin (acc o f ps cs a) = true ->
  isfin a = true /\ (forall p c, In (p, c) (combine ps cs) -> isfin (f p c) = true) /\
  Rabs (B2R (acc o f ps cs a) - (B2R a + over (fun p c => B2R (f p c)) ps cs)) <=
    ((1 + u) ^ length ps - 1) * (Rabs (B2R a) + over (fun p c => Rabs (B2R (f p c))) ps cs).
Proof.
  induction ps as [|p ps IH]; intros [|c cs] a HL H; try discriminate; cbn [acc over] in *.
  - split; [exact H|]. split; [intros p c []|]. cbn [length pow]. replace (B2R a - (B2R a + 0)) with 0 by ring. rewrite Rabs_R0. lra.
  - destruct (IH cs (o_add o a (f p c)) ltac:(cbn in HL; lia) H) as (F1 & F2 & E1). change (o_add o a (f p c)) with (fadd a (f p c)) in *.
    destruct (fadd_back_rel a (f p c) F1) as (Fa & Ff & e & He & Ee). split; [exact Fa|]. split.
    { intros q d [Hq|Hq]; [inversion Hq; subst; exact Ff|exact (F2 q d Hq)]. }
    set (A := over (fun p c => B2R (f p c)) ps cs) in *. set (M := over (fun p c => Rabs (B2R (f p c))) ps cs) in *.
    set (X := B2R (acc o f ps cs (fadd a (f p c)))) in *. rewrite Ee in E1. set (x := B2R a) in *. set (y := B2R (f p c)) in *.
    cbn [length pow]. pose proof (grow_1 (length ps)) as G. set (g := (1 + u) ^ length ps) in *. pose proof u_pos as U.
    assert (HM : 0 <= M) by (apply over_pos; intros; apply Rabs_pos).
    replace (X - (x + (y + A))) with (X - ((x + y) * (1 + e) + A) + (x + y) * e) by ring.
    eapply Rle_trans; [apply Rabs_triang|].
    assert (B1 : Rabs ((x + y) * (1 + e)) <= (Rabs x + Rabs y) * (1 + u)).
    { rewrite Rabs_mult. apply Rmult_le_compat; try apply Rabs_pos; [apply Rabs_triang|].
      eapply Rle_trans; [apply Rabs_triang|]. rewrite Rabs_R1. lra. }
    assert (B2 : Rabs ((x + y) * e) <= (Rabs x + Rabs y) * u).
    { rewrite Rabs_mult. apply Rmult_le_compat; try apply Rabs_pos; [apply Rabs_triang|exact He]. }
    assert (B3 : (g - 1) * (Rabs ((x + y) * (1 + e)) + M) <= (g - 1) * ((Rabs x + Rabs y) * (1 + u) + M)) by (apply Rmult_le_compat_l; lra).
    assert (B4 : 0 <= u * g * M) by (apply Rmult_le_pos; [apply Rmult_le_pos; lra|exact HM]).
    replace (((1 + u) * g - 1) * (Rabs x + (Rabs y + M))) with ((g - 1) * ((Rabs x + Rabs y) * (1 + u) + M) + (Rabs x + Rabs y) * u + u * g * M) by ring.
    lra.
Qed.

Lemma acc_near (f : string -> f64 -> f64) (g tau : string -> f64 -> R) th ps cs a :
  length cs = length ps -> isfin (acc o f ps cs a) = true -> 0 <= th ->
  (forall p c, In (p, c) (combine ps cs) -> isfin (f p c) = true -> Rabs (B2R (f p c) - g p c) <= th * Rabs (g p c) + tau p c) ->
  Rabs (B2R (acc o f ps cs a) - (B2R a + over g ps cs)) <=
    ((1 + u) ^ length ps * (1 + th) - 1) * (Rabs (B2R a) + over (fun p c => Rabs (g p c)) ps cs) + (1 + u) ^ length ps * over tau ps cs.
Proof.
  intros HL H Hth Hf. destruct (acc_err f ps cs a HL H) as (Fa & Ff & E).
  assert (D : Rabs (over (fun p c => B2R (f p c)) ps cs - over g ps cs) <= th * over (fun p c => Rabs (g p c)) ps cs + over tau ps cs).
  { rewrite over_sub, <- over_scal, <- over_add. eapply Rle_trans; [apply over_abs|]. apply over_le. intros p c Hp. apply Hf; [exact Hp|exact (Ff p c Hp)]. }
  assert (M : over (fun p c => Rabs (B2R (f p c))) ps cs <= (1 + th) * over (fun p c => Rabs (g p c)) ps cs + over tau ps cs).
  { rewrite <- over_scal, <- over_add. apply over_le. intros p c Hp. pose proof (Hf p c Hp (Ff p c Hp)).
    replace (B2R (f p c)) with (g p c + (B2R (f p c) - g p c)) by ring. eapply Rle_trans; [apply Rabs_triang|]. lra. }
  set (A := over (fun p c => B2R (f p c)) ps cs) in *. set (G := over g ps cs) in *. set (GM := over (fun p c => Rabs (g p c)) ps cs) in *.
  set (AM := over (fun p c => Rabs (B2R (f p c))) ps cs) in *. set (TT := over tau ps cs) in *.
  set (X := B2R (acc o f ps cs a)) in *. pose proof (grow_1 (length ps)) as K. set (k := (1 + u) ^ length ps) in *.
  replace (X - (B2R a + G)) with (X - (B2R a + A) + (A - G)) by ring. eapply Rle_trans; [apply Rabs_triang|].
  assert (B : (k - 1) * (Rabs (B2R a) + AM) <= (k - 1) * (Rabs (B2R a) + ((1 + th) * GM + TT))) by (apply Rmult_le_compat_l; lra).
  assert (C : 0 <= k * th * Rabs (B2R a)) by (apply Rmult_le_pos; [apply Rmult_le_pos; lra|apply Rabs_pos]).
  replace ((k * (1 + th) - 1) * (Rabs (B2R a) + GM) + k * TT) with ((k - 1) * (Rabs (B2R a) + ((1 + th) * GM + TT)) + (th * GM + TT) + k * th * Rabs (B2R a)) by ring.
  lra.
Qed.

Lemma in_combine_ex {A B} (l : list A) (l' : list B) x : length l' = length l -> In x l -> exists y, In (x, y) (combine l l').
Proof.
  revert l'. induction l as [|a l IH]; intros [|b l'] HL []; try discriminate.
  - subst. exists b. left. reflexivity.
  - destruct (IH l' ltac:(cbn in HL; lia) H) as [y Hy]. exists y. right. exact Hy.
Qed.

(** The means of the network. *)
Theorem mu_residual (N : network f64) : dag N ->
  exists M : string -> f64,
    (forall vars, incl vars (n_order N) -> get_mu o N vars = Ok (map M (match vars with [] => n_order N | _ => vars end))) /\
    forall v, In v (n_order N) -> isfin (M v) = true ->
      let ps := d_parents (n_cpd N v) in let cs := tl (d_beta (n_cpd N v)) in let b := B2R (hd fzero (d_beta (n_cpd N v))) in
      (forall p, In p ps -> isfin (M p) = true) /\
      Rabs (B2R (M v) - (b + over (fun p c => B2R c * B2R (M p)) ps cs)) <=
        ((1 + u) ^ S (length ps) - 1) * (Rabs b + over (fun p c => Rabs (B2R c * B2R (M p))) ps cs) + (1 + u) ^ length ps * over (fun _ _ => eta) ps cs.
Proof.
  intros HD. destruct (all_mu_acc o N HD) as (mu & E & L & H). exists (fun v => vget o (pos N v) mu). split.
  - intros vars Hv. unfold get_mu. rewrite E. cbn [rbind]. destruct vars as [|v0 vs] eqn:Ev.
    + f_equal. apply (list_of_nth _ (n_order N) mu (zero o) L). intros k v Hk. rewrite (pos_ok N k v HD Hk). reflexivity.
    + rewrite <- Ev in *. destruct (positions_ok N vars HD Hv) as [Hp _]. rewrite Hp. cbn [rbind]. rewrite map_map. reflexivity.
  - intros v Hv Hf. apply In_nth_error in Hv as [k Hk]. cbv zeta. rewrite (pos_ok N k v HD Hk) in *.
    pose proof (H k v Hk) as Ek. pose proof (dag_length N k v HD Hk) as HL. pose proof (dag_beta N k v HD Hk) as HB.
    replace (hd (zero o) (d_beta (n_cpd N v))) with (hd fzero (d_beta (n_cpd N v))) in Ek by (destruct (d_beta (n_cpd N v)); [congruence|reflexivity]).
    rewrite Ek in Hf. split.
    + intros p Hp. destruct (acc_err _ _ _ _ HL Hf) as (_ & Ff & _). destruct (in_combine_ex _ _ p HL Hp) as [c Hc].
      exact (proj1 (proj2 (fmul_back _ _ (Ff p c Hc)))).
    + rewrite Ek. replace ((1 + u) ^ S (length (d_parents (n_cpd N v))) - 1) with ((1 + u) ^ length (d_parents (n_cpd N v)) * (1 + u) - 1) by (cbn [pow]; ring).
      apply acc_near; [exact HL|exact Hf|apply Rlt_le, u_pos|]. intros p c _ F. apply fmul_back_rel, F.
Qed.

Lemma square_table (N : network f64) m : dag N -> square (length (n_order N)) m ->
  m = map (fun p => map (fun q => mget o (pos N p) (pos N q) m) (n_order N)) (n_order N).
Proof.
  intros HD [S1 S2]. apply (list_of_nth _ (n_order N) m [] S1). intros k v Hk. rewrite (pos_ok N k v HD Hk).
  assert (Hl : (k < length (n_order N))%nat) by (apply nth_error_Some; congruence).
  apply (list_of_nth _ (n_order N) (nth k m []) (zero o)); [apply S2, Hl|]. intros j w Hj. rewrite (pos_ok N j w HD Hj). reflexivity.
Qed.

Lemma get_sigma_table tol (N : network f64) m : dag N -> flt (Z2f 0) tol = true -> all_sigma o N = Ok m -> square (length (n_order N)) m ->
  (forall p q, In p (n_order N) -> In q (n_order N) -> isfin (mget o (pos N p) (pos N q) m) = true) ->
  forall vars, incl vars (n_order N) -> let V := match vars with [] => n_order N | _ => vars end in
  get_sigma o tol N vars = Ok (map (fun p => map (fun q => mget o (pos N p) (pos N q) m) V) V).
Proof.
  intros HD Ht E Sm HF vars Hv V. destruct (sigma64 s tol N HD Ht) as (m1 & E1 & S1 & _ & G & _). fold o in E1, G.
  assert (m1 = m) by congruence. subst m1.
  assert (AF : all_finite m).
  { apply (square_forall s _ _ m Sm). intros i j Hi Hj. destruct (node_at N i Hi) as (p & Hp & _), (node_at N j Hj) as (q & Hq & _).
    specialize (HF p q (nth_error_In _ _ Hp) (nth_error_In _ _ Hq)). rewrite (pos_ok N i p HD Hp), (pos_ok N j q HD Hq) in HF. exact HF. }
  destruct (G AF vars Hv) as (m' & E' & _). unfold get_sigma in *. rewrite E in *. cbn [rbind] in *.
  destruct (check_symmetric o tol (length (n_order N)) m); [|discriminate E'].
  unfold V. destruct vars as [|v0 vs] eqn:Ev; [f_equal; exact (square_table N m HD Sm)|]. rewrite <- Ev in *.
  destruct (positions_ok N vars HD Hv) as [Hp _]. rewrite Hp. cbn [rbind]. f_equal. rewrite map_map. apply map_ext. intros p. apply map_map.
Qed.

(** Two roundings of a product of three numbers. *)
Lemma mul3_near (x c : f64) : isfin (fmul x (fmul c c)) = true ->
  isfin x = true /\ Rabs (B2R (fmul x (fmul c c)) - B2R x * (B2R c * B2R c)) <= ((1 + u) * (1 + u) - 1) * Rabs (B2R x * (B2R c * B2R c)) + eta * (1 + (1 + u) * Rabs (B2R x)).
Proof.
  intros H. destruct (fmul_back_rel _ _ H) as (Fx & Fc & E1). destruct (fmul_back_rel _ _ Fc) as (_ & _ & E2). split; [exact Fx|].
  set (X := B2R x) in *. set (C := B2R c * B2R c) in *. set (D := B2R (fmul c c)) in *. set (Y := B2R (fmul x (fmul c c))) in *.
  pose proof u_pos as U. pose proof eta_pos as T. rewrite !Rabs_mult in *. pose proof (Rabs_pos X) as PX. pose proof (Rabs_pos C) as PC.
  assert (B1 : Rabs (X * (D - C)) <= Rabs X * (u * Rabs C + eta)) by (rewrite Rabs_mult; apply Rmult_le_compat_l; [exact PX|exact E2]).
  assert (B2 : Rabs X * Rabs D <= Rabs X * ((1 + u) * Rabs C + eta)).
  { apply Rmult_le_compat_l; [exact PX|]. replace D with (C + (D - C)) by ring. eapply Rle_trans; [apply Rabs_triang|]. lra. }
  assert (B3 : u * (Rabs X * Rabs D) <= u * (Rabs X * ((1 + u) * Rabs C + eta))) by (apply Rmult_le_compat_l; lra).
  replace (Y - X * C) with (Y - X * D + X * (D - C)) by ring. eapply Rle_trans; [apply Rabs_triang|].
  replace (((1 + u) * (1 + u) - 1) * (Rabs X * Rabs C) + eta * (1 + (1 + u) * Rabs X))
    with (u * (Rabs X * ((1 + u) * Rabs C + eta)) + eta + Rabs X * (u * Rabs C + eta)) by ring. lra.
Qed.

(** The covariance matrix of the network. *)
Theorem sigma_residual tol (N : network f64) : dag N -> flt (Z2f 0) tol = true ->
  exists S : string -> string -> f64,
    (forall p q, In p (n_order N) -> In q (n_order N) -> S p q = S q p) /\
    ((forall p q, In p (n_order N) -> In q (n_order N) -> isfin (S p q) = true) ->
       forall vars, incl vars (n_order N) -> let V := match vars with [] => n_order N | _ => vars end in
       get_sigma o tol N vars = Ok (map (fun p => map (S p) V) V)) /\
    (forall v, In v (n_order N) -> isfin (S v v) = true ->
      let ps := d_parents (n_cpd N v) in let cs := tl (d_beta (n_cpd N v)) in let b := B2R (d_var (n_cpd N v)) in
      (forall p, In p ps -> isfin (S p p) = true) /\
      Rabs (B2R (S v v) - (b + over (fun p c => B2R (S p p) * (B2R c * B2R c)) ps cs)) <=
        ((1 + u) ^ (length ps + 2) - 1) * (Rabs b + over (fun p c => Rabs (B2R (S p p) * (B2R c * B2R c))) ps cs) +
        (1 + u) ^ length ps * over (fun p _ => eta * (1 + (1 + u) * Rabs (B2R (S p p)))) ps cs) /\
    (forall k w v, nth_error (n_order N) k = Some v -> In w (firstn k (n_order N)) -> isfin (S w v) = true ->
      let ps := d_parents (n_cpd N v) in let cs := tl (d_beta (n_cpd N v)) in
      (forall p, In p ps -> isfin (S w p) = true) /\
      Rabs (B2R (S w v) - over (fun p c => B2R c * B2R (S w p)) ps cs) <=
        ((1 + u) ^ (length ps + 1) - 1) * over (fun p c => Rabs (B2R c * B2R (S w p))) ps cs + (1 + u) ^ length ps * over (fun _ _ => eta) ps cs).
Proof.
  intros HD Ht. destruct (all_sigma_acc o N HD) as (m & E & Sm & HDi & HC). exists (fun p q => mget o (pos N p) (pos N q) m).
  split; [|split; [exact (get_sigma_table tol N m HD Ht E Sm)|split]].
  - intros p q Hp Hq. apply In_nth_error in Hp as [i Hi], Hq as [j Hj]. rewrite (pos_ok N i p HD Hi), (pos_ok N j q HD Hj).
    destruct (Nat.lt_trichotomy i j) as [H|[->|H]]; [|reflexivity|].
    + symmetry. apply (HC i j q H Hj).
    + apply (HC j i p H Hi).
  - intros v Hv Hf. apply In_nth_error in Hv as [k Hk]. cbv zeta. rewrite (pos_ok N k v HD Hk) in *.
    pose proof (HDi k v Hk) as Ek. unfold diag_eq in Ek. pose proof (dag_length N k v HD Hk) as HL. rewrite Ek in Hf. split.
    + intros p Hp. destruct (acc_err _ _ _ _ HL Hf) as (_ & Ff & _). destruct (in_combine_ex _ _ p HL Hp) as [c Hc].
      exact (proj1 (mul3_near _ _ (Ff p c Hc))).
    + rewrite Ek. replace ((1 + u) ^ (length (d_parents (n_cpd N v)) + 2) - 1) with ((1 + u) ^ length (d_parents (n_cpd N v)) * (1 + ((1 + u) * (1 + u) - 1)) - 1) by (rewrite pow_add; ring).
      apply acc_near; [exact HL|exact Hf| |].
      * pose proof u_pos. pose proof (Rmult_le_pos u u ltac:(lra) ltac:(lra)). lra.
      * intros p c _ F. apply mul3_near, F.
  - intros k w v Hk Hw Hf. cbv zeta. apply In_nth_error in Hw as [i Hi].
    assert (Hik : (i < k)%nat).
    { assert (i < length (firstn k (n_order N)))%nat by (apply nth_error_Some; congruence). rewrite firstn_length in H. lia. }
    assert (Hw : nth_error (n_order N) i = Some w).
    { rewrite <- (firstn_skipn k (n_order N)). rewrite nth_error_app1; [exact Hi|]. apply nth_error_Some. congruence. }
    rewrite (pos_ok N k v HD Hk), (pos_ok N i w HD Hw) in *.
    destruct (HC i k v Hik Hk) as [Ek _]. pose proof (dag_length N k v HD Hk) as HL. rewrite Ek in Hf. split.
    + intros p Hp. destruct (acc_err _ _ _ _ HL Hf) as (_ & Ff & _). destruct (in_combine_ex _ _ p HL Hp) as [c Hc].
      exact (proj1 (proj2 (fmul_back _ _ (Ff p c Hc)))).
    + rewrite Ek. assert (Z0 : B2R (zero o) = 0) by exact Z2f_0_R.
      replace ((1 + u) ^ (length (d_parents (n_cpd N v)) + 1) - 1) with ((1 + u) ^ length (d_parents (n_cpd N v)) * (1 + u) - 1) by (rewrite pow_add; ring).
      pose proof (acc_near (fun p c => o_mul o c (mget o i (pos N p) m)) (fun p c => B2R c * B2R (mget o i (pos N p) m)) (fun _ _ => eta) u _ _ (zero o) HL Hf (Rlt_le _ _ u_pos)) as A.
      rewrite Z0, Rabs_R0, !Rplus_0_l in A. apply A. intros p c _ F. apply fmul_back_rel, F.
Qed.
End Rounded.
