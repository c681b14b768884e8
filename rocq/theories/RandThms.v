(** Facts about [np.random.choice]: the inverse-cdf lookup only returns positions of
    positive probability. *)
From Coq Require Import String List ZArith Bool Lia Reals Lra.
From Flocq Require Import Core IEEE754.BinarySingleNaN.
From Verif Require Import PyBase B64 B64More NdArray Rand.
Import ListNotations.
Open Scope nat_scope.

(** numpy's binary search on a sorted list: everything before the result is <= key, and the
    result, if inside, is > key. *)
Lemma bsearch_spec (key : f64) (l : list f64) :
  (forall i j, i <= j -> j < List.length l -> flt key (nth i l fnan) = true -> flt key (nth j l fnan) = true) ->
  forall fuel lo hi,
    hi - lo < fuel -> lo <= hi -> hi <= List.length l ->
    (forall i, i < lo -> flt key (nth i l fnan) = false) ->
    (hi < List.length l -> flt key (nth hi l fnan) = true) ->
    let k := bsearch fuel lo hi key l in
    k <= List.length l /\ (forall i, i < k -> flt key (nth i l fnan) = false) /\
    (k < List.length l -> flt key (nth k l fnan) = true).
Proof.
  intros Hmono. induction fuel as [|f IH]; intros lo hi Hf Hle Hhi Hlo Hup; [lia|].
  cbn [bsearch]. destruct (Nat.ltb_spec lo hi) as [Hlt|Hge].
  - set (mid := lo + (hi - lo) / 2).
    assert (Hd : (hi - lo) / 2 < hi - lo) by (apply Nat.div_lt; lia).
    assert (Hmid : lo <= mid < hi) by (unfold mid; lia).
    destruct (flt key (nth mid l fnan)) eqn:E.
    + apply IH; try lia; [exact Hlo|]. intros _. exact E.
    + apply IH; try lia; [|exact Hup].
      intros i Hi. destruct (flt key (nth i l fnan)) eqn:Ei; [|reflexivity].
      assert (Hx : flt key (nth mid l fnan) = true) by (apply (Hmono i mid); [lia|lia|exact Ei]). congruence.
  - cbn. assert (lo = hi) by lia. subst hi. split; [lia|]. split; [exact Hlo|exact Hup].
Qed.

Open Scope R_scope.

(** Probabilities as numpy receives them: finite, in the unit interval. *)
Definition prob (x : f64) : Prop := fle (Z2f 0) x = true /\ fle x fone = true.

Lemma prob_R x : prob x -> isfin x = true /\ 0 <= B2R x <= 1.
Proof. intros [H1 H2]. apply fle_unit_R; assumption. Qed.


Lemma cumsum_from_length acc l : List.length (cumsum_from acc l) = List.length l.
Proof. revert acc. induction l as [|x l IH]; intros acc; cbn; [reflexivity|]. rewrite IH. reflexivity. Qed.
Lemma cumsum_length l : List.length (cumsum l) = List.length l.
Proof. destruct l; cbn; [reflexivity|]. rewrite cumsum_from_length. reflexivity. Qed.

(** One step of the running sum. *)
Lemma cumsum_step acc x (k : Z) :
  isfin acc = true -> 0 <= B2R acc <= IZR k -> (0 <= k < 2 ^ 53)%Z -> prob x ->
  isfin (fadd acc x) = true /\ B2R acc <= B2R (fadd acc x) <= IZR (k + 1) /\
  B2R x <= B2R (fadd acc x) /\ (B2R x = 0 -> B2R (fadd acc x) = B2R acc).
Proof.
  intros Fa Ha Hk Hx. destruct (prob_R x Hx) as [Fx Rx].
  assert (Hup : rnd (B2R acc + B2R x) <= IZR (k + 1)).
  { apply rnd_le_Z; [lia|]. rewrite plus_IZR. lra. }
  assert (Hlo : B2R acc <= rnd (B2R acc + B2R x)) by (apply B2R_le_rnd; lra).
  pose proof big_gt_2_53 as Hb.
  assert (Hk1 : IZR (k + 1) <= IZR (2 ^ 53)) by (apply IZR_le; lia).
  destruct (fadd_fin acc x Fa Fx) as [Fs Rs].
  { apply Rabs_def1; lra. }
  split; [exact Fs|]. rewrite Rs. split; [split; [exact Hlo|exact Hup]|].
  split; [apply B2R_le_rnd; lra|]. intros H0. rewrite H0, Rplus_0_r. apply rnd_B2R.
Qed.

(** Running sums: finite, increasing, at least each term, flat where the term is zero. *)
Lemma cumsum_from_facts l : forall acc (k : Z),
  isfin acc = true -> 0 <= B2R acc <= IZR k -> (0 <= k)%Z -> (k + Z.of_nat (List.length l) <= 2 ^ 53)%Z ->
  Forall prob l ->
  forall i, (i < List.length l)%nat ->
    let s := nth i (cumsum_from acc l) fnan in
    let s0 := match i with O => acc | S j => nth j (cumsum_from acc l) fnan end in
    isfin s = true /\ B2R acc <= B2R s0 <= B2R s /\ B2R (nth i l fnan) <= B2R s /\ 0 <= B2R s <= IZR (2 ^ 53) /\
    (B2R (nth i l fnan) = 0 -> B2R s = B2R s0).
Proof.
  induction l as [|x l IH]; intros acc k Fa Ha Hk Hlen Hp i Hi; [cbn in Hi; lia|].
  inversion Hp as [|? ? Hx Hp']; subst. cbn [List.length] in *.
  destruct (cumsum_step acc x k Fa Ha ltac:(lia) Hx) as (Fs & Hs1 & Hs2 & Hs3).
  assert (Hk1 : IZR (k + 1) <= IZR (2 ^ 53)) by (apply IZR_le; lia).
  destruct i as [|i]; cbn [cumsum_from nth].
  - split; [exact Fs|]. split; [lra|]. split; [exact Hs2|]. split; [lra|]. exact Hs3.
  - destruct (IH (fadd acc x) (k + 1)%Z Fs ltac:(lra) ltac:(lia) ltac:(lia) Hp' i ltac:(lia)) as (F & H1 & H2 & H3 & H4).
    destruct i as [|i]; cbn [nth] in *; (split; [exact F|]; split; [lra|]; split; [exact H2|]; split; [lra|]; exact H4).
Qed.

Lemma cumsum_facts l :
  (Z.of_nat (List.length l) <= 2 ^ 53)%Z -> Forall prob l ->
  forall i, (i < List.length l)%nat ->
    let s := nth i (cumsum l) fnan in
    isfin s = true /\ 0 <= B2R s <= IZR (2 ^ 53) /\ B2R (nth i l fnan) <= B2R s /\
    match i with
    | O => B2R s = B2R (nth 0 l fnan)
    | S j => B2R (nth j (cumsum l) fnan) <= B2R s /\
             (B2R (nth i l fnan) = 0 -> B2R s = B2R (nth j (cumsum l) fnan))
    end.
Proof.
  destruct l as [|x l]; intros Hlen Hp i Hi; [cbn in Hi; lia|].
  inversion Hp as [|? ? Hx Hp']; subst. destruct (prob_R x Hx) as [Fx Rx]. cbn [List.length] in *.
  destruct i as [|i]; cbn [cumsum nth].
  - split; [exact Fx|]. split; [|split; [lra|reflexivity]]. split; [lra|]. apply Rle_trans with 1; [lra|]. apply IZR_le. lia.
  - destruct (cumsum_from_facts l x 1 Fx ltac:(lra) ltac:(lia) ltac:(lia) Hp' i ltac:(lia)) as (F & H1 & H2 & H3 & H4).
    split; [exact F|]. split; [exact H3|]. split; [exact H2|].
    destruct i as [|i]; cbn [nth] in *; (split; [lra|exact H4]).
Qed.

Lemma cumsum_mono l :
  (Z.of_nat (List.length l) <= 2 ^ 53)%Z -> Forall prob l ->
  forall i j, (i <= j)%nat -> (j < List.length l)%nat -> B2R (nth i (cumsum l) fnan) <= B2R (nth j (cumsum l) fnan).
Proof.
  intros Hlen Hp i j Hij. induction Hij as [|j Hij IH]; intros Hj; [lra|].
  destruct (cumsum_facts l Hlen Hp (S j) Hj) as (_ & _ & _ & H & _). specialize (IH ltac:(lia)). lra.
Qed.

Lemma last_nth {A} (l : list A) d : last l d = nth (List.length l - 1) l d.
Proof.
  induction l as [|x l IH]; [reflexivity|]. destruct l as [|y l]; [reflexivity|].
  change (last (x :: y :: l) d) with (last (y :: l) d). rewrite IH. cbn [List.length].
  replace (S (S (List.length l)) - 1)%nat with (S (S (List.length l) - 1)) by lia. reflexivity.
Qed.

Section Cdf.
Variable p : list f64.
Hypothesis Hlen : (Z.of_nat (List.length p) <= 2 ^ 53)%Z.
Hypothesis Hp : Forall prob p.
Hypothesis Hpos : exists x, In x p /\ 0 < B2R x.

Let n := List.length p.
Let total := last (cumsum p) fnan.

Lemma n_pos : (0 < n)%nat.
Proof. destruct Hpos as (x & Hx & _). unfold n. destruct p; [destruct Hx|cbn; lia]. Qed.

Lemma total_facts : isfin total = true /\ 0 < B2R total <= IZR (2 ^ 53).
Proof.
  pose proof n_pos as Hn. unfold total. rewrite last_nth, cumsum_length. fold n.
  destruct (cumsum_facts p Hlen Hp (n - 1) ltac:(unfold n in *; lia)) as (F & H1 & _).
  split; [exact F|]. split; [|lra].
  destruct Hpos as (x & Hx & Hx0). apply (In_nth _ _ fnan) in Hx as (i & Hi & Hxi).
  destruct (cumsum_facts p Hlen Hp i Hi) as (_ & _ & H2 & _). cbv zeta in H2. rewrite Hxi in H2.
  pose proof (cumsum_mono p Hlen Hp i (n - 1) ltac:(unfold n in *; lia) ltac:(unfold n in *; lia)). lra.
Qed.

Lemma cdf_nth i : (i < n)%nat -> nth i (cdf p) fnan = fdiv (nth i (cumsum p) fnan) total.
Proof.
  intros Hi. unfold cdf. fold total. rewrite (nth_indep _ fnan (fdiv fnan total)).
  - apply (map_nth (fun x => fdiv x total)).
  - rewrite map_length, cumsum_length. exact Hi.
Qed.

Lemma cdf_facts i : (i < n)%nat ->
  let c := nth i (cdf p) fnan in
  isfin c = true /\ B2R c = rnd (B2R (nth i (cumsum p) fnan) / B2R total).
Proof.
  intros Hi. cbv zeta. rewrite (cdf_nth i Hi). destruct total_facts as [Ft Ht].
  destruct (cumsum_facts p Hlen Hp i Hi) as (F & H1 & _).
  pose proof n_pos as Hn.
  pose proof (cumsum_mono p Hlen Hp i (n - 1) ltac:(unfold n in *; lia) ltac:(unfold n in *; lia)) as Hm.
  assert (Hq : 0 <= B2R (nth i (cumsum p) fnan) / B2R total <= 1).
  { split; [apply Rmult_le_pos; [lra|]; left; apply Rinv_0_lt_compat; lra|].
    apply (Rmult_le_reg_r (B2R total)); [lra|]. unfold Rdiv. rewrite Rmult_assoc, Rinv_l by lra.
    replace total with (nth (n - 1) (cumsum p) fnan) by (unfold total; rewrite last_nth, cumsum_length; reflexivity). lra. }
  apply fdiv_fin; [exact F|lra|].
  pose proof big_gt_2_53 as Hb. assert (1 <= IZR (2 ^ 53)) by (apply IZR_le; lia).
  pose proof (rnd_le_Z (B2R (nth i (cumsum p) fnan) / B2R total) 1 ltac:(lia) ltac:(lra)).
  pose proof (Z_le_rnd (B2R (nth i (cumsum p) fnan) / B2R total) 0 ltac:(lia) ltac:(lra)). apply Rabs_def1; lra.
Qed.

Lemma cdf_length : List.length (cdf p) = n.
Proof. unfold cdf. rewrite map_length, cumsum_length. reflexivity. Qed.

Lemma cdf_mono i j : (i <= j)%nat -> (j < n)%nat -> B2R (nth i (cdf p) fnan) <= B2R (nth j (cdf p) fnan).
Proof.
  intros Hij Hj. destruct (cdf_facts i ltac:(lia)) as [_ ->]. destruct (cdf_facts j Hj) as [_ ->].
  destruct total_facts as [_ Ht]. apply rnd_le. unfold Rdiv. apply Rmult_le_compat_r; [left; apply Rinv_0_lt_compat; lra|].
  apply cumsum_mono; assumption.
Qed.

Lemma cdf_last : B2R (nth (n - 1) (cdf p) fnan) = 1.
Proof.
  pose proof n_pos as Hn. destruct (cdf_facts (n - 1) ltac:(lia)) as [_ ->].
  replace (nth (n - 1) (cumsum p) fnan) with total by (unfold total; rewrite last_nth, cumsum_length; reflexivity).
  destruct total_facts as [_ Ht]. unfold Rdiv. rewrite Rinv_r by lra. apply (rnd_Z 1). lia.
Qed.

(** A uniform draw selects an existing position, of positive probability. *)
Lemma choice_pos u :
  fle (Z2f 0) u = true -> flt u fone = true ->
  let k := searchsorted_right (cdf p) u in
  (k < List.length p)%nat /\ 0 < B2R (nth k p fnan).
Proof.
  intros H0 H1. destruct (unit_R u H0 H1) as [Fu Ru]. pose proof n_pos as Hn.
  assert (Hlt : forall i, (i < n)%nat -> (flt u (nth i (cdf p) fnan) = true <-> B2R u < B2R (nth i (cdf p) fnan))).
  { intros i Hi. apply flt_fin; [exact Fu|]. apply (cdf_facts i Hi). }
  destruct (bsearch_spec u (cdf p)) with (fuel := S (List.length (cdf p))) (lo := 0%nat) (hi := List.length (cdf p))
    as (Hk & Hbefore & Hat); try lia.
  { intros i j Hij Hj. rewrite cdf_length in Hj. rewrite !Hlt by lia. pose proof (cdf_mono i j Hij Hj). lra. }
  fold (searchsorted_right (cdf p) u) in *. set (k := searchsorted_right (cdf p) u) in *. cbv zeta. fold n.
  rewrite cdf_length in *.
  assert (Hkn : (k < n)%nat).
  { destruct (Nat.eq_dec k n) as [E|]; [exfalso|lia].
    specialize (Hbefore (n - 1)%nat ltac:(lia)). assert (Hx : flt u (nth (n - 1) (cdf p) fnan) = true).
    { apply Hlt; [lia|]. rewrite cdf_last. lra. }
    congruence. }
  split; [exact Hkn|]. specialize (Hat Hkn). apply (Hlt k Hkn) in Hat.
  assert (Hpk : prob (nth k p fnan)) by (rewrite Forall_forall in Hp; apply Hp, nth_In; exact Hkn).
  destruct (prob_R _ Hpk) as [_ Hr].
  destruct (Req_dec (B2R (nth k p fnan)) 0) as [Hz|Hnz]; [exfalso|lra].
  destruct (cumsum_facts p Hlen Hp k Hkn) as (_ & _ & _ & Hc).
  destruct (cdf_facts k Hkn) as [_ Hcd]. rewrite Hcd in Hat.
  destruct k as [|j].
  - rewrite Hc, Hz in Hat. unfold Rdiv in Hat. rewrite Rmult_0_l, rnd_0 in Hat. lra.
  - destruct Hc as [_ Hc]. rewrite (Hc Hz) in Hat. destruct (cdf_facts j ltac:(lia)) as [_ Hj]. rewrite <- Hj in Hat.
    apply (Hlt j ltac:(lia)) in Hat. rewrite (Hbefore j ltac:(lia)) in Hat. discriminate.
Qed.

End Cdf.

(** Compensated summation of zeros is zero, so a validated distribution has a positive entry. *)
Lemma kahan_zero l : forall s c, isfin s = true -> isfin c = true -> B2R s = 0 -> B2R c = 0 ->
  Forall prob l -> Forall (fun x => B2R x = 0) l -> isfin (kahan_from s c l) = true /\ B2R (kahan_from s c l) = 0.
Proof.
  assert (Hsmall : Rabs (rnd 0) < big) by (rewrite rnd_0, Rabs_R0; apply big_pos).
  induction l as [|x l IH]; intros s c Fs Fc Hs Hc Hp Hz; cbn [kahan_from]; [split; assumption|].
  inversion Hp as [|? ? Hx Hp']; subst. inversion Hz as [|? ? Hx0 Hz']; subst. destruct (prob_R x Hx) as [Fx _].
  destruct (fsub_fin x c Fx Fc) as [Fy Ry]; [rewrite Hx0, Hc, Rminus_0_r; exact Hsmall|]. rewrite Hx0, Hc, Rminus_0_r, rnd_0 in Ry.
  destruct (fadd_fin s (fsub x c) Fs Fy) as [Ft Rt]; [rewrite Hs, Ry, Rplus_0_r; exact Hsmall|]. rewrite Hs, Ry, Rplus_0_r, rnd_0 in Rt.
  destruct (fsub_fin (fadd s (fsub x c)) s Ft Fs) as [Fd Rd]; [rewrite Hs, Rt, Rminus_0_r; exact Hsmall|]. rewrite Hs, Rt, Rminus_0_r, rnd_0 in Rd.
  destruct (fsub_fin (fsub (fadd s (fsub x c)) s) (fsub x c) Fd Fy) as [Fe Re]; [rewrite Rd, Ry, Rminus_0_r; exact Hsmall|].
  rewrite Rd, Ry, Rminus_0_r, rnd_0 in Re. apply IH; assumption.
Qed.

Lemma probs_ok_pos p : Forall prob p -> probs_ok p = true -> exists x, In x p /\ 0 < B2R x.
Proof.
  intros Hp H.
  destruct (Forall_Exists_dec (fun x => B2R x = 0) (fun x => Req_EM_T (B2R x) 0) p) as [Hz|Hex].
  - exfalso. unfold probs_ok in H. apply andb_true_iff in H as [_ H].
    assert (Hk : isfin (kahan_sum p) = true /\ B2R (kahan_sum p) = 0).
    { destruct p as [|x l]; cbn [kahan_sum]; [split; [exact Z2f_0_fin|exact Z2f_0_R]|].
      inversion Hp as [|? ? Hx Hp']; subst. inversion Hz as [|? ? Hx0 Hz']; subst. destruct (prob_R x Hx) as [Fx _].
      apply kahan_zero; try assumption; [exact Z2f_0_fin|exact Z2f_0_R]. }
    destruct Hk as [Fk Rk].
    assert (Hs : isfin (fsub (kahan_sum p) fone) = true /\ B2R (fsub (kahan_sum p) fone) = -1).
    { assert (E : rnd (B2R (kahan_sum p) - B2R fone) = -1).
      { rewrite Rk, fone_R. replace (0 - 1) with (IZR (-1)) by (cbn; lra). apply rnd_Z. lia. }
      destruct (fsub_fin (kahan_sum p) fone Fk fone_fin) as [F R].
      - rewrite E. pose proof big_gt_2_53. assert (1 <= IZR (2 ^ 53)) by (apply IZR_le; lia). apply Rabs_def1; lra.
      - rewrite E in R. split; assumption. }
    destruct Hs as [Fs Rs].
    assert (Fb : isfin (fabs (fsub (kahan_sum p) fone)) = true).
    { unfold fabs, isfin in *. rewrite Flocq.IEEE754.BinarySingleNaN.is_finite_Babs. exact Fs. }
    assert (Rb : B2R (fabs (fsub (kahan_sum p) fone)) = 1).
    { unfold fabs. rewrite Flocq.IEEE754.BinarySingleNaN.B2R_Babs, Rs. rewrite Rabs_left by lra. lra. }
    assert (Hat : flt choice_atol (fabs (fsub (kahan_sum p) fone)) = true).
    { assert (Fa : isfin choice_atol = true) by (vm_compute; reflexivity).
      assert (Ha : flt choice_atol fone = true) by (vm_compute; reflexivity).
      apply (flt_fin _ _ Fa fone_fin) in Ha. rewrite fone_R in Ha. apply flt_fin; [exact Fa|exact Fb|]. rewrite Rb. exact Ha. }
    rewrite Hat in H. discriminate.
  - apply Exists_exists in Hex as (x & Hx & Hnz). exists x. split; [exact Hx|].
    rewrite Forall_forall in Hp. destruct (prob_R x (Hp x Hx)) as [_ Hr]. lra.
Qed.

(** [np.random.choice(a, size, p)]: every value returned is one of [a], at a position of
    positive probability; nothing else can go wrong after validation. *)
Lemma np_choice_spec {W A} (g : rng W) (a : list A) (size : Z) (p : list f64) (w : W) :
  unif_ok g -> Forall prob p -> (Z.of_nat (List.length p) <= 2 ^ 53)%Z ->
  (exists out, fst (np_choice g a size p w) = Ok out /\
     List.length out = Z.to_nat size /\ (0 <= size)%Z /\ List.length p = List.length a /\
     Forall (fun x => exists k, nth_error a k = Some x /\ (0 < B2R (nth k p fnan))%R) out) \/
  fst (np_choice g a size p w) = Raise ValueError.
Proof.
  intros Hg Hp Hlen. unfold np_choice.
  destruct (Z.ltb_spec size 0) as [|Hs]; [right; reflexivity|].
  destruct (Nat.eqb (List.length a) 0 && negb (size =? 0)%Z); [right; reflexivity|].
  destruct (Nat.eqb_spec (List.length p) (List.length a)) as [Hl|]; [|right; reflexivity]. cbn [negb].
  destruct (probs_ok p) eqn:Hok; [|right; reflexivity]. cbn [negb].
  pose proof (Hg (Z.to_nat size) 1%nat w) as Hu. destruct (g_unif g (Z.to_nat size) 1 w) as [u w']. cbn [fst] in *.
  assert (Hk : forall i, (searchsorted_right (cdf p) (u i 0%nat) < List.length p)%nat /\
                         0 < B2R (nth (searchsorted_right (cdf p) (u i 0%nat)) p fnan)).
  { intros i. destruct (Hu i 0%nat) as [H0 H1]. apply choice_pos; try assumption. apply probs_ok_pos; assumption. }
  left. destruct (gather_in_range (tabulate (Z.to_nat size) (fun i => searchsorted_right (cdf p) (u i 0%nat))) a) as [out Hout].
  { apply Forall_tabulate. intros i _. rewrite <- Hl. apply Hk. }
  exists out. split; [exact Hout|]. apply gather_ok_Forall2 in Hout.
  assert (Hlo : List.length out = Z.to_nat size).
  { clear - Hout. rewrite <- (tabulate_length (Z.to_nat size) (fun i => searchsorted_right (cdf p) (u i 0%nat))).
    induction Hout; cbn; congruence. }
  split; [exact Hlo|]. split; [exact Hs|]. split; [exact Hl|].
  assert (Hidx : Forall (fun k => 0 < B2R (nth k p fnan)) (tabulate (Z.to_nat size) (fun i => searchsorted_right (cdf p) (u i 0%nat)))).
  { apply Forall_tabulate. intros i _. apply Hk. }
  clear - Hout Hidx. induction Hout as [|k x ks xs Hkx Hrest IH]; [constructor|].
  inversion Hidx; subst. constructor; [exists k; split; assumption|auto].
Qed.
