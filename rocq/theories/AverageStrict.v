(** Selection lowers the average cost, unless there is nothing to choose. *)
From Coq Require Import List ZArith Bool Lia Permutation Sorted Reals Lra.
From Flocq Require Import IEEE754.BinarySingleNaN.
From Verif Require Import PyBase B64 B64More NdArray Eda Spec SelectAny LoopFail FailThms Average.
Import ListNotations.
Local Open Scope R_scope.

Lemma add_up_le a b x y : a <= b -> x <= y -> a + x <= b + y.
Proof. lra. Qed.
Lemma tight_split a b x y : a <= b -> x <= y -> a + x = b + y -> a = b /\ x = y.
Proof. lra. Qed.
Lemma succ_mult n m : (n + 1) * m = m + n * m.
Proof. ring. Qed.

Lemma sum_le m l : Forall (fun p : row * f64 => B2R (snd p) <= m) l -> cost_sum l <= INR (List.length l) * m.
Proof.
  induction 1 as [|p l H _ IH]; [cbn; lra|]. cbn [List.length cost_sum]. rewrite S_INR, succ_mult. exact (add_up_le _ _ _ _ H IH).
Qed.
Lemma sum_ge m l : Forall (fun p : row * f64 => m <= B2R (snd p)) l -> INR (List.length l) * m <= cost_sum l.
Proof.
  induction 1 as [|p l H _ IH]; [cbn; lra|]. cbn [List.length cost_sum]. rewrite S_INR, succ_mult. exact (add_up_le _ _ _ _ H IH).
Qed.
Lemma sum_le_tight m l : Forall (fun p : row * f64 => B2R (snd p) <= m) l -> cost_sum l = INR (List.length l) * m ->
  Forall (fun p : row * f64 => B2R (snd p) = m) l.
Proof.
  induction 1 as [|p l H F IH]; [constructor|]. cbn [List.length cost_sum]. rewrite S_INR, succ_mult. intros E.
  destruct (tight_split _ _ _ _ H (sum_le _ _ F) E) as [E1 E2]. constructor; [exact E1|exact (IH E2)].
Qed.
Lemma sum_ge_tight m l : Forall (fun p : row * f64 => m <= B2R (snd p)) l -> cost_sum l = INR (List.length l) * m ->
  Forall (fun p : row * f64 => B2R (snd p) = m) l.
Proof.
  induction 1 as [|p l H F IH]; [constructor|]. cbn [List.length cost_sum]. rewrite S_INR, succ_mult. intros E.
  destruct (tight_split _ _ _ _ H (sum_ge _ _ F) (eq_sym E)) as [E1 E2]. constructor; [exact (eq_sym E1)|exact (IH (eq_sym E2))].
Qed.

Lemma mixture so sr n r m : 0 < n -> 0 < r -> so <= n * m -> r * m <= sr -> ~ (so = n * m /\ sr = r * m) -> so / n < (so + sr) / (n + r).
Proof.
  intros Pn Pr H1 H2 H3. apply (Rmult_lt_reg_r (n * (n + r))); [apply Rmult_lt_0_compat; lra|].
  replace (so / n * (n * (n + r))) with (so * n + so * r) by (field; lra).
  replace ((so + sr) / (n + r) * (n * (n + r))) with (so * n + sr * n) by (field; lra).
  apply Rplus_lt_compat_l. apply (Rle_lt_or_eq_dec _ _) in H1 as [H1|H1].
  - apply (Rlt_le_trans _ (n * m * r)); [apply Rmult_lt_compat_r; assumption|].
    replace (n * m * r) with (r * m * n) by ring. apply Rmult_le_compat_r; lra.
  - apply (Rle_lt_or_eq_dec _ _) in H2 as [H2|H2]; [|exfalso; apply H3; split; [exact H1|symmetry; exact H2]].
    rewrite H1. replace (n * m * r) with (r * m * n) by ring. apply Rmult_lt_compat_r; assumption.
Qed.

(** Some costs differ. *)
Definition varied (l : list (row * f64)) : Prop := exists x y, In x l /\ In y l /\ B2R (snd x) < B2R (snd y).

Lemma cheapest_strict k pool out : cheapest k pool out -> finite_costs pool -> out <> [] -> (List.length out < List.length pool)%nat ->
  varied pool -> average out < average pool.
Proof.
  intros (rest & Hp & Hs & Hr & _) Hf Hne Hl (x & y & Hx & Hy & Hxy).
  assert (Hfo : finite_costs (out ++ rest)) by exact (Permutation_Forall Hp Hf). apply Forall_app in Hfo as [Fo Fr].
  destruct (last_dearest out Hne Fo Hs) as (p & Hpin & Hall). set (m := B2R (snd p)) in *.
  assert (Hge : Forall (fun q => m <= B2R (snd q)) rest).
  { rewrite Forall_forall in Fo, Fr |- *. intros q Hq. apply cheaper_R; [apply Fo, Hpin|apply Fr, Hq|exact (Hr p q Hpin Hq)]. }
  assert (El : List.length pool = (List.length out + List.length rest)%nat) by (rewrite (Permutation_length Hp); apply app_length).
  unfold average. rewrite (cost_sum_perm _ _ Hp), cost_sum_app, El, plus_INR.
  apply (mixture _ _ _ _ m).
  - apply lt_0_INR. destruct out; [congruence|cbn; lia].
  - apply lt_0_INR. lia.
  - exact (sum_le m out Hall).
  - exact (sum_ge m rest Hge).
  - intros [E1 E2]. pose proof (sum_le_tight m out Hall E1) as T1. pose proof (sum_ge_tight m rest Hge E2) as T2.
    assert (T : Forall (fun q : row * f64 => B2R (snd q) = m) (out ++ rest)) by (apply Forall_app; split; assumption).
    rewrite Forall_forall in T. pose proof (T x (Permutation_in _ Hp Hx)) as Tx. pose proof (T y (Permutation_in _ Hp Hy)) as Ty.
    apply (Rlt_irrefl m). rewrite <- Tx at 1. rewrite <- Ty. exact Hxy.
Qed.

Section Loop.
Context {S W : Type} (c : cfg) (h : hooks S W).
Hypothesis Hsort : argsort_ok (h_argsort h).
Hypothesis HT : (0 <= c_trunc_len c)%Z.
Hypothesis HE : (0 <= c_elite_len c)%Z.

Lemma strict_every ftol out (s : st S W) r tr : executes c h ftol out s r tr ->
  each_event (fun before e => match e with
    | EvSelect train elite => finite_costs (evaluated before) ->
        exists gv, latest before = Some gv /\
          (varied (pairs gv ++ elite_before before) ->
            (train <> [] -> (List.length train < List.length (pairs gv ++ elite_before before))%nat ->
              average train < average (pairs gv ++ elite_before before)) /\
            (elite <> [] -> (List.length elite < List.length (pairs gv ++ elite_before before))%nat ->
              average elite < average (pairs gv ++ elite_before before)))
    | _ => True
    end) tr.
Proof.
  intros H tr1 e tr2 Etr. pose proof (pool_finite c h Hsort HT HE _ _ _ _ _ H tr1 e tr2 Etr) as K. destruct e; try exact I. cbn in K.
  intros Hfin. destruct (K Hfin) as (gv & train0 & elite0 & Hl & Fp & Hct & Hcpt & Hce & Hcpe).
  exists gv. split; [exact Hl|]. intros Hv. split; intros Hne Hlen.
  - rewrite <- (copied_average _ _ Hcpt). apply (cheapest_strict _ _ _ Hct Fp (copied_ne _ _ Hcpt Hne)); [|exact Hv].
    rewrite (copied_len _ _ Hcpt). exact Hlen.
  - rewrite <- (copied_average _ _ Hcpe). apply (cheapest_strict _ _ _ Hce Fp (copied_ne _ _ Hcpe Hne)); [|exact Hv].
    rewrite (copied_len _ _ Hcpe). exact Hlen.
Qed.
End Loop.

(** The events before the first selection, and that selection (for examples). *)
Fixpoint first_selection (tr : list ev) : option (list ev * (list (row * f64) * list (row * f64)) * list ev) :=
  match tr with
  | [] => None
  | e :: tr' => match e with
                | EvSelect t el => Some ([], (t, el), tr')
                | _ => match first_selection tr' with Some (b, te, a) => Some (e :: b, te, a) | None => None end
                end
  end.
Lemma first_selection_eq tr : forall b t el a, first_selection tr = Some (b, (t, el), a) -> tr = b ++ EvSelect t el :: a.
Proof.
  induction tr as [|e tr IH]; intros b t el a H; [discriminate H|]. destruct e; cbn in H;
    try (destruct (first_selection tr) as [[[b' [t' el']] a']|]; [|discriminate H]; injection H as <- <- <- <-; cbn; f_equal; apply IH; reflexivity).
  injection H as <- <- <- <-. reflexivity.
Qed.

Definition variedb (l : list (row * f64)) : bool :=
  forallb (fun p => isfin (snd p)) l && existsb (fun x => existsb (fun y => flt (snd x) (snd y)) l) l.
Lemma variedb_varied l : variedb l = true -> varied l.
Proof.
  unfold variedb. intros H. apply andb_prop in H as [F H]. apply existsb_exists in H as (x & Hx & H). apply existsb_exists in H as (y & Hy & H).
  rewrite forallb_forall in F. exists x, y. split; [exact Hx|]. split; [exact Hy|].
  pose proof (F x Hx) as Fx. pose proof (F y Hy) as Fy. cbn in Fx, Fy. unfold flt in H.
  rewrite (Bltb_correct _ _ _ _ Fx Fy) in H. destruct (Raux.Rlt_bool_spec (B2R (snd x)) (B2R (snd y))) as [L|L]; [exact L|discriminate H].
Qed.
