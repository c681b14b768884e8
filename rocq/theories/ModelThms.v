(** Facts about the probabilistic models. *)
From Coq Require Import String List ZArith Bool Lia Reals Lra Permutation.
From Verif Require Import PyBase B64 B64More NdArray Rand Models.
Import ListNotations.
Open Scope nat_scope.

(* ------------------------------------------------------------------ *)
(** ** UniBin *)

(** A row of [n] zeros and ones. *)
Definition bit (c : cell) : Prop := c = CI 0 \/ c = CI 1.
Definition bit_row (n : nat) (r : row) : Prop := List.length r = n /\ Forall bit r.
Definition bit_arr (n : nat) (a : arr) : Prop := a_dt a = DInt /\ a_nc a = n /\ Forall (bit_row n) (a_rows a).

(** [q] forced into [[lo, hi]]. *)
Definition clamped (lo hi q p : f64) : Prop :=
  (flt q lo = true -> p = lo) /\ (flt hi q = true -> p = hi) /\
  (fle lo q = true -> fle q hi = true -> p = q).

Lemma clamp_bounds lo hi q :
  flt lo hi = true ->
  let p := (let p := if flt q lo then lo else q in if flt hi p then hi else p) in
  (isnan p = false -> fle lo p = true /\ fle p hi = true) /\ clamped lo hi q p.
Proof.
  intros H. destruct (flt_not_nan _ _ H) as [Nl Nh]. cbv zeta.
  assert (Hll : flt hi lo = false) by (apply flt_asym; exact H).
  split.
  - destruct (flt q lo) eqn:E1.
    + rewrite Hll. intros _. split; [apply fle_refl, Nl|apply flt_fle, H].
    + destruct (flt hi q) eqn:E2; intros Nq.
      * split; [apply flt_fle, H|apply fle_refl, Nh].
      * split; apply flt_false_fle; assumption.
  - unfold clamped. destruct (flt q lo) eqn:E1.
    + rewrite Hll. split; [reflexivity|]. split.
      * intros E2. pose proof (flt_trans _ _ _ E2 E1) as E3. congruence.
      * intros E2. apply fle_flt_false in E2. congruence.
    + split; [discriminate|]. split; [intros ->; reflexivity|].
      intros _ E2. apply fle_flt_false in E2. rewrite E2. reflexivity.
Qed.

Lemma unibin_learn_inv d m m' :
  unibin_learn d m = (Ok tt, m') ->
  exists total sums, a_rows d <> [] /\ sum_rows (repeat (CI 0%Z) (a_nc d)) (a_rows d) = Ok total /\
    rmapM cell_num total = Ok sums /\
    m' = mkUB (ub_n m) (ub_lo m) (ub_hi m) (map (fun s =>
            let p := fdiv s (Z2f (Z.of_nat (List.length (a_rows d)))) in
            let p := if flt p (ub_lo m) then (ub_lo m) else p in
            if flt (ub_hi m) p then (ub_hi m) else p) sums).
Proof.
  unfold unibin_learn, unibin_probs. destruct (a_rows d) as [|r rs] eqn:E; [discriminate|].
  destruct (sum_rows _ _) as [total|] eqn:Et; cbn [rbind]; [|discriminate].
  destruct (rmapM cell_num total) as [sums|] eqn:Es; cbn [rbind]; [|discriminate].
  intros H. injection H as <-. exists total, sums. repeat split; auto. discriminate.
Qed.

Lemma unibin_bounds d m m' :
  flt (ub_lo m) (ub_hi m) = true -> unibin_learn d m = (Ok tt, m') ->
  Forall (fun p => isnan p = false -> fle (ub_lo m) p = true /\ fle p (ub_hi m) = true) (ub_pm m').
Proof.
  intros Hb H. apply unibin_learn_inv in H as (total & sums & _ & _ & _ & ->). cbn.
  apply Forall_forall. intros p Hp. apply in_map_iff in Hp as (s & <- & _). apply clamp_bounds, Hb.
Qed.

Lemma unibin_empty d m : a_rows d = [] -> unibin_learn d m = (Raise ZeroDivisionError, m).
Proof. intros H. unfold unibin_learn, unibin_probs. rewrite H. reflexivity. Qed.

(** Sums of bits. *)
Fixpoint ones_in (j : nat) (rs : list row) : nat :=
  match rs with
  | [] => 0
  | r :: rs' => (match nth_error r j with Some (CI 1%Z) => 1 | _ => 0 end) + ones_in j rs'
  end.

Lemma row_add_ints (a b : list Z) :
  List.length a = List.length b -> row_add (map CI a) (map CI b) = Ok (map CI (map (fun p => (fst p + snd p)%Z) (combine a b))).
Proof.
  revert b. induction a as [|x a IH]; intros [|y b] H; cbn in *; try discriminate; [reflexivity|].
  rewrite IH by congruence. reflexivity.
Qed.

Lemma bit_row_ints n r : bit_row n r -> exists zs, r = map CI zs /\ List.length zs = n /\
  forall j, j < n -> nth j zs 0%Z = Z.of_nat (match nth_error r j with Some (CI 1%Z) => 1 | _ => 0 end).
Proof.
  intros [Hl Hb]. exists (map (fun c => match c with CI z => z | _ => 0%Z end) r).
  assert (Hr : map CI (map (fun c => match c with CI z => z | _ => 0%Z end) r) = r).
  { clear Hl. induction Hb as [|c r Hc Hr IH]; [reflexivity|]. cbn. rewrite IH. destruct Hc as [-> | ->]; reflexivity. }
  split; [symmetry; exact Hr|]. split; [rewrite map_length; exact Hl|].
  intros j Hj. rewrite <- Hl in Hj. clear Hr Hl. revert j Hj. induction Hb as [|c r Hc Hr IH]; intros j Hj; [cbn in Hj; lia|].
  destruct j as [|j]; cbn; [destruct Hc as [-> | ->]; reflexivity|]. apply IH. cbn in Hj. lia.
Qed.

Lemma sum_rows_bits n rs : Forall (bit_row n) rs -> forall acc, List.length acc = n ->
  exists out, sum_rows (map CI acc) rs = Ok (map CI out) /\ List.length out = n /\
  forall j, j < n -> nth j out 0%Z = (nth j acc 0 + Z.of_nat (ones_in j rs))%Z.
Proof.
  induction 1 as [|r rs Hr Hrs IH]; intros acc Hacc.
  - exists acc. split; [reflexivity|]. split; [exact Hacc|]. intros j Hj. cbn. lia.
  - destruct (bit_row_ints n r Hr) as (zs & -> & Hlz & Hz). cbn [sum_rows].
    rewrite row_add_ints by congruence. cbn [rbind].
    destruct (IH (map (fun p => (fst p + snd p)%Z) (combine acc zs))) as (out & Ho & Hlo & Hn).
    { rewrite map_length, combine_length. lia. }
    exists out. split; [exact Ho|]. split; [exact Hlo|]. intros j Hj. rewrite (Hn j Hj). cbn [ones_in].
    rewrite Nat2Z.inj_add, <- (Hz j Hj).
    pose proof (map_nth (fun p : Z * Z => (fst p + snd p)%Z) (combine acc zs) (0%Z, 0%Z) j) as Hm.
    change ((fun p : Z * Z => (fst p + snd p)%Z) (0%Z, 0%Z)) with 0%Z in Hm. rewrite Hm, combine_nth by congruence. cbn. lia.
Qed.

Lemma rmapM_num_ints zs : rmapM cell_num (map CI zs) = Ok (map Z2f zs).
Proof. induction zs as [|z zs IH]; [reflexivity|]. cbn. rewrite IH. reflexivity. Qed.

Lemma repeat_map_CI n : repeat (CI 0%Z) n = map CI (repeat 0%Z n).
Proof. induction n; cbn; congruence. Qed.

(** Learning from a non-empty 0/1 data set succeeds; each probability is the clamped frequency
    of ones. *)
Lemma unibin_bits d m n :
  flt (ub_lo m) (ub_hi m) = true ->
  a_nc d = n -> Forall (bit_row n) (a_rows d) -> a_rows d <> [] ->
  exists m', unibin_learn d m = (Ok tt, m') /\ ub_n m' = ub_n m /\ ub_lo m' = ub_lo m /\ ub_hi m' = ub_hi m /\
    List.length (ub_pm m') = n /\
    forall j, j < n -> exists p, nth_error (ub_pm m') j = Some p /\
      clamped (ub_lo m) (ub_hi m)
              (fdiv (Z2f (Z.of_nat (ones_in j (a_rows d)))) (Z2f (Z.of_nat (List.length (a_rows d))))) p.
Proof.
  intros Hb Hnc Hrows Hne. unfold unibin_learn, unibin_probs.
  destruct (sum_rows_bits n (a_rows d) Hrows (repeat 0%Z n)) as (out & Ho & Hlo & Hn); [apply repeat_length|].
  rewrite <- repeat_map_CI, <- Hnc in Ho. destruct (a_rows d) as [|r rs] eqn:E; [congruence|]. rewrite <- E in *.
  rewrite Ho. cbn [rbind]. rewrite rmapM_num_ints. cbn [rbind]. eexists. split; [reflexivity|].
  split; [reflexivity|]. split; [reflexivity|]. split; [reflexivity|]. cbn [ub_pm]. split.
  - rewrite !map_length. exact Hlo.
  - intros j Hj. rewrite nth_error_map, nth_error_map.
    rewrite (nth_error_nth' out 0%Z) by lia. cbn. eexists. split; [reflexivity|].
    rewrite (Hn j Hj), nth_repeat, Z.add_0_l. apply clamp_bounds, Hb.
Qed.

(** Any array [UniBin.sample] returns. *)
Lemma unibin_sample_spec {W} (g : rng W) m size w a w' :
  unibin_sample g m size w = (Ok a, w') ->
  (0 <= size)%Z /\ a_dt a = DInt /\ a_len a = Z.to_nat size /\ Some (a_nc a) = bres (ub_n m) (List.length (ub_pm m)) /\
  Forall (bit_row (a_nc a)) (a_rows a) /\
  forall i j, i < Z.to_nat size -> j < a_nc a ->
    nth_error (nth i (a_rows a) []) j =
    Some (CI (if flt (fst (g_unif g (Z.to_nat size) (ub_n m) w) i (bidx (ub_n m) j))
                     (nth (bidx (List.length (ub_pm m)) j) (ub_pm m) fnan) then 1 else 0)%Z).
Proof.
  unfold unibin_sample. destruct (Z.ltb_spec size 0) as [|Hs]; [discriminate|].
  destruct (g_unif g (Z.to_nat size) (ub_n m) w) as [u w1] eqn:E. cbn [fst].
  destruct (bres (ub_n m) (List.length (ub_pm m))) as [k|] eqn:Ek; [|discriminate].
  intros H. injection H as <- <-. cbn [a_dt a_nc a_rows]. split; [exact Hs|]. split; [reflexivity|].
  split; [unfold a_len; cbn; rewrite tabulate_length; reflexivity|]. split; [reflexivity|]. split.
  - apply Forall_tabulate. intros i _. split; [apply tabulate_length|]. apply Forall_tabulate. intros j _.
    destruct (flt _ _); [right|left]; reflexivity.
  - intros i j Hi Hj. rewrite nth_tabulate by exact Hi.
    rewrite nth_error_tabulate by exact Hj. reflexivity.
Qed.

(** A learned probability never makes a value impossible. *)
Lemma draw_below lo hi p u :
  flt (Z2f 0) lo = true -> flt hi fone = true ->
  fle lo p = true -> fle p hi = true ->
  (flt u lo = true -> flt u p = true) /\ (fle hi u = true -> flt u p = false).
Proof.
  intros H0 H1 Hp1 Hp2. split.
  - intros H. eapply flt_fle_trans; eassumption.
  - intros H. apply fle_flt_false. eapply fle_trans; eassumption.
Qed.

(* ------------------------------------------------------------------ *)
(** ** Gaussian models *)

Lemma learn_from_ok {T} (upd : nat -> res (T * T)) pm : forall i pm',
  learn_from upd i pm = (Ok tt, pm') ->
  List.length pm' = List.length pm /\ forall k, k < List.length pm -> exists q, nth_error pm' k = Some q /\ upd (i + k) = Ok q.
Proof.
  induction pm as [|p pm IH]; intros i pm' H; cbn [learn_from] in H.
  - injection H as <-. split; [reflexivity|]. cbn. lia.
  - destruct (upd i) as [q|e] eqn:E; [|discriminate].
    destruct (learn_from upd (S i) pm) as [r pm''] eqn:E'. injection H as -> <-.
    destruct (IH _ _ E') as [Hl Hk]. split; [cbn; congruence|]. intros [|k] Hk'.
    + exists q. split; [reflexivity|]. rewrite Nat.add_0_r. exact E.
    + cbn in Hk'. destruct (Hk k ltac:(lia)) as (q' & H1 & H2). exists q'. split; [exact H1|].
      rewrite <- H2. f_equal. lia.
Qed.

(** A successful learn determines the whole model. *)
Lemma learn_from_forgets {T} (upd : nat -> res (T * T)) : forall pm1 pm2 i pm1' pm2',
  List.length pm1 = List.length pm2 ->
  learn_from upd i pm1 = (Ok tt, pm1') -> learn_from upd i pm2 = (Ok tt, pm2') -> pm1' = pm2'.
Proof.
  induction pm1 as [|p1 pm1 IH]; intros [|p2 pm2] i pm1' pm2' Hl H1 H2; cbn in Hl; try discriminate; cbn [learn_from] in *.
  - congruence.
  - destruct (upd i) as [q|e]; [|discriminate].
    destruct (learn_from upd (S i) pm1) as [r1 x1] eqn:E1, (learn_from upd (S i) pm2) as [r2 x2] eqn:E2.
    injection H1 as -> <-. injection H2 as -> <-. f_equal. eapply IH; [|exact E1|exact E2]. congruence.
Qed.

(** Whether learning succeeds does not depend on the previous model either. *)
Lemma learn_from_outcome {T} (upd : nat -> res (T * T)) : forall pm1 pm2 i,
  List.length pm1 = List.length pm2 -> fst (learn_from upd i pm1) = fst (learn_from upd i pm2).
Proof.
  induction pm1 as [|p1 pm1 IH]; intros [|p2 pm2] i Hl; cbn in Hl; try discriminate; cbn [learn_from]; [reflexivity|].
  destruct (upd i) as [q|e]; [|reflexivity]. specialize (IH pm2 (S i) ltac:(congruence)).
  destruct (learn_from upd (S i) pm1), (learn_from upd (S i) pm2). exact IH.
Qed.

(** Learning succeeds when every column can be read. *)
Lemma learn_from_total {T} (upd : nat -> res (T * T)) pm : forall i,
  (forall k, k < List.length pm -> exists q, upd (i + k) = Ok q) -> exists pm', learn_from upd i pm = (Ok tt, pm').
Proof.
  induction pm as [|p pm IH]; intros i H; cbn [learn_from]; [eexists; reflexivity|].
  destruct (H 0 ltac:(cbn; lia)) as [q Hq]. rewrite Nat.add_0_r in Hq. rewrite Hq.
  destruct (IH (S i)) as [pm' Hpm'].
  { intros k Hk. destruct (H (S k) ltac:(cbn; lia)) as [q' Hq']. exists q'. rewrite <- Hq'. f_equal. lia. }
  rewrite Hpm'. eexists. reflexivity.
Qed.

Lemma raise_to_ge s lo v : isnan lo = false -> isnan (raise_to (b64_ops s) lo v) = false -> fle lo (raise_to (b64_ops s) lo v) = true.
Proof.
  intros Hn. unfold raise_to. cbn [o_ltb b64_ops]. destruct (flt v lo) eqn:E; intros H.
  - apply fle_refl, Hn.
  - apply flt_false_fle; assumption.
Qed.

(** Every deviation learned is at least the lower bound, or NaN. *)
Lemma unigauss_sd s lower col pm pm' :
  isnan lower = false -> unigauss_learn (b64_ops s) lower col pm = (Ok tt, pm') ->
  Forall (fun q => isnan (snd q) = false -> fle lower (snd q) = true) pm'.
Proof.
  intros Hn H. apply learn_from_ok in H as [Hl Hk]. apply Forall_forall. intros q Hq.
  apply In_nth_error in Hq as [k Hkq]. assert (Hlt : k < List.length pm) by (rewrite <- Hl; apply nth_error_Some; congruence).
  destruct (Hk k Hlt) as (q' & H1 & H2). rewrite Hkq in H1. injection H1 as <-. unfold unigauss_upd in H2.
  destruct (col (0 + k)); cbn in H2; [|discriminate]. injection H2 as <-. apply raise_to_ge, Hn.
Qed.

Lemma adapt_sd s lower alpha col pm pm' :
  isnan lower = false -> adapt_learn (b64_ops s) lower alpha col pm = (Ok tt, pm') ->
  Forall (fun q => isnan (snd q) = false -> fle lower (snd q) = true) pm'.
Proof.
  intros Hn H. apply learn_from_ok in H as [Hl Hk]. apply Forall_forall. intros q Hq.
  apply In_nth_error in Hq as [k Hkq]. assert (Hlt : k < List.length pm) by (rewrite <- Hl; apply nth_error_Some; congruence).
  destruct (Hk k Hlt) as (q' & H1 & H2). rewrite Hkq in H1. injection H1 as <-. unfold adapt_upd in H2.
  destruct (col (0 + k)) as [x|]; cbn in H2; [|discriminate]. destruct x as [|b1 [|b2 x]]; try discriminate.
  injection H2 as <-. apply raise_to_ge, Hn.
Qed.

(** *** Over the reals *)

Open Scope R_scope.

Lemma Rsum_bounds lo hi (x : list R) : (forall v, In v x -> lo <= v <= hi) ->
  INR (List.length x) * lo <= Rsum x <= INR (List.length x) * hi.
Proof.
  induction x as [|v x IH]; intros H; [cbn; lra|].
  destruct (H v ltac:(left; reflexivity)). specialize (IH ltac:(intros u Hu; apply H; right; exact Hu)).
  cbn [List.length Rsum fold_right]. rewrite S_INR. unfold Rsum in *. lra.
Qed.

Lemma mean_between lo hi (x : list R) : x <> [] -> (forall v, In v x -> lo <= v <= hi) -> lo <= mean R_ops x <= hi.
Proof.
  intros Hne H. pose proof (Rsum_bounds lo hi x H) as Hb. unfold mean, len_T. cbn [R_ops o_div o_sum o_ofZ].
  rewrite <- INR_IZR_INZ. assert (Hn : 0 < INR (List.length x)) by (apply lt_0_INR; destruct x; [congruence|cbn; lia]).
  split; apply (Rmult_le_reg_r (INR (List.length x))); try exact Hn;
    unfold Rdiv; rewrite Rmult_assoc, Rinv_l by lra; lra.
Qed.

(** Mean and variance of a list of reals, as in a textbook. *)
Definition avg (x : list R) : R := Rsum x / INR (List.length x).
Definition pop_var (x : list R) : R := Rsum (map (fun v => (v - avg x) * (v - avg x)) x) / INR (List.length x).
Definition sample_cov (x y : list R) : R :=
  Rsum (map (fun p => (fst p - avg x) * (snd p - avg y)) (combine x y)) / (INR (List.length x) - 1).

Lemma mean_avg x : mean R_ops x = avg x.
Proof. unfold mean, len_T, avg. cbn. rewrite <- INR_IZR_INZ. reflexivity. Qed.

Lemma combine_self {A} (l : list A) : combine l l = map (fun v => (v, v)) l.
Proof. induction l; cbn; congruence. Qed.

Lemma combine_map2 {A B C D} (f : A -> C) (g : B -> D) l l' :
  combine (map f l) (map g l') = map (fun p => (f (fst p), g (snd p))) (combine l l').
Proof. revert l'. induction l as [|x l IH]; intros [|y l']; cbn; try reflexivity. rewrite IH. reflexivity. Qed.

Lemma std_pop x : std R_ops x = sqrt (pop_var x).
Proof.
  unfold std, dot, centred, pop_var, len_T. cbn [R_ops o_sqrt o_div o_sum o_mul o_sub o_ofZ].
  rewrite mean_avg, combine_self, !map_map. cbn [fst snd]. rewrite <- INR_IZR_INZ. reflexivity.
Qed.

Lemma cov_entry_sample x y :
  (2 <= List.length x)%nat -> cov_entry R_ops x y = sample_cov x y.
Proof.
  intros H. unfold cov_entry, dot, centred, sample_cov. cbn [R_ops o_sqrt o_div o_sum o_mul o_sub o_ofZ].
  rewrite !mean_avg, combine_map2, map_map. cbn [fst snd].
  rewrite Z.max_l by lia. rewrite minus_IZR, <- INR_IZR_INZ. unfold Rdiv. rewrite Rmult_1_l. reflexivity.
Qed.

Lemma raise_to_max lo v : raise_to R_ops lo v = Rmax lo v.
Proof.
  unfold raise_to. cbn. unfold Rltb. destruct (Rlt_dec v lo) as [H|H].
  - rewrite Rmax_left by lra. reflexivity.
  - rewrite Rmax_right by lra. reflexivity.
Qed.
Lemma lower_to_min hi v : lower_to R_ops hi v = Rmin hi v.
Proof.
  unfold lower_to. cbn. unfold Rltb. destruct (Rlt_dec hi v) as [H|H].
  - rewrite Rmin_left by lra. reflexivity.
  - rewrite Rmin_right by lra. reflexivity.
Qed.

(** What UniGauss learns in exact arithmetic. *)
Lemma unigauss_real lower nc (d : list (list R)) pm pm' :
  unigauss_learn R_ops lower (real_col nc d) pm = (Ok tt, pm') ->
  List.length pm' = List.length pm /\
  forall i q, nth_error pm' i = Some q ->
    let x := map (fun r => nth i r 0) d in
    fst q = avg x /\ snd q = Rmax lower (sqrt (pop_var x)) /\
    (d <> [] -> forall lo hi, (forall v, In v x -> lo <= v <= hi) -> lo <= fst q <= hi).
Proof.
  intros H. apply learn_from_ok in H as [Hl Hk]. split; [exact Hl|]. intros i q Hq.
  assert (Hi : (i < List.length pm)%nat) by (rewrite <- Hl; apply nth_error_Some; congruence).
  destruct (Hk i Hi) as (q' & H1 & H2). rewrite Hq in H1. injection H1 as <-. unfold unigauss_upd, real_col in H2. cbn [plus] in H2.
  destruct (Nat.ltb i nc); cbn [rmap] in H2; [|discriminate]. match type of H2 with Ok ?v = _ => assert (Hv : q = v) by congruence end. clear H2. subst q. cbn [fst snd].
  rewrite mean_avg, raise_to_max, std_pop. split; [reflexivity|]. split; [reflexivity|].
  intros Hd lo hi Hb. rewrite <- mean_avg. apply mean_between; [|exact Hb]. destruct d; [congruence|discriminate].
Qed.

(** What AdaptUniGauss learns in exact arithmetic: the mean of the data set takes the place of
    the previous mean. *)
Lemma adapt_real lower alpha nc (d : list (list R)) pm pm' :
  adapt_learn R_ops lower alpha (real_col nc d) pm = (Ok tt, pm') ->
  List.length pm' = List.length pm /\
  forall i q, nth_error pm' i = Some q ->
    let x := map (fun r => nth i r 0) d in
    (2 <= List.length d)%nat /\
    fst q = (1 - alpha) * avg x + alpha * (nth 0 x 0 + nth 1 x 0 - nth (List.length d - 1) x 0) /\
    snd q = Rmax lower (sqrt (pop_var x)).
Proof.
  intros H. apply learn_from_ok in H as [Hl Hk]. split; [exact Hl|]. intros i q Hq.
  assert (Hi : (i < List.length pm)%nat) by (rewrite <- Hl; apply nth_error_Some; congruence).
  destruct (Hk i Hi) as (q' & H1 & H2). rewrite Hq in H1. injection H1 as <-. unfold adapt_upd, real_col in H2. cbn [plus] in H2.
  destruct (Nat.ltb i nc); cbn [rbind] in H2; [|discriminate]. cbv zeta.
  set (x := map (fun r => nth i r 0) d) in *.
  assert (Hlx : List.length x = List.length d) by apply map_length.
  destruct x as [|b1 [|b2 x']] eqn:Ex; try discriminate. rewrite <- Ex in *. match type of H2 with Ok ?v = _ => assert (Hv : q = v) by congruence end. clear H2. subst q. cbn [fst snd].
  rewrite mean_avg, raise_to_max, std_pop. split; [rewrite <- Hlx, Ex; cbn; lia|]. split; [|reflexivity].
  cbn [R_ops o_add o_mul o_sub o_ofZ]. f_equal. f_equal. f_equal.
  - rewrite Ex. reflexivity.
  - assert (Hlast : forall (l : list R) dflt dflt', l <> [] -> last l dflt = nth (List.length l - 1) l dflt').
    { clear. induction l as [|a l IH]; intros d d' Hne; [congruence|]. destruct l as [|b l]; [reflexivity|].
      change (last (a :: b :: l) d) with (last (b :: l) d). rewrite (IH d d') by discriminate. cbn [List.length].
      replace (S (S (List.length l)) - 1)%nat with (S (S (List.length l) - 1)) by lia. reflexivity. }
    rewrite <- Hlx. apply Hlast. rewrite Ex. discriminate.
Qed.

(** *** MultiGauss *)

Lemma means_from_ok {T} (o : ops T) (col : nat -> res (list T)) ms : forall i ms',
  means_from o col i ms = (Ok tt, ms') ->
  List.length ms' = List.length ms /\
  forall k, (k < List.length ms)%nat -> exists x, col (i + k)%nat = Ok x /\ nth_error ms' k = Some (mean o x).
Proof.
  induction ms as [|m ms IH]; intros i ms' H; cbn [means_from] in H.
  - injection H as <-. split; [reflexivity|]. cbn. lia.
  - destruct (col i) as [x|e] eqn:E; [|discriminate].
    destruct (means_from o col (S i) ms) as [r ms''] eqn:E'. injection H as -> <-.
    destruct (IH _ _ E') as [Hl Hk]. split; [cbn; congruence|]. intros [|k] Hk'.
    + exists x. rewrite Nat.add_0_r. split; [exact E|reflexivity].
    + cbn in Hk'. destruct (Hk k ltac:(lia)) as (x' & H1 & H2). exists x'. split; [|exact H2]. rewrite <- H1. f_equal. lia.
Qed.

(** After a successful learn: the means of the model's columns and the covariance matrix of
    the data set's columns. *)
Lemma multigauss_ok {T} (o : ops T) lower upper nc col p p' :
  multigauss_learn o lower upper nc col p = (Ok tt, p') ->
  nc <> 1%nat /\
  List.length (mg_means p') = List.length (mg_means p) /\
  (forall k, (k < List.length (mg_means p))%nat -> exists x, col k = Ok x /\ nth_error (mg_means p') k = Some (mean o x)) /\
  exists cols, rmapM col (seq 0 nc) = Ok cols /\ List.length cols = nc /\
    mg_cov p' = CovMat (cov_matrix o lower upper cols).
Proof.
  unfold multigauss_learn. destruct (means_from o col 0 (mg_means p)) as [[u|e] ms] eqn:E; [|discriminate]. destruct u.
  apply means_from_ok in E as [Hl Hk]. destruct (rmapM col (seq 0 nc)) as [cols|e] eqn:Ec; [|discriminate].
  assert (Hlc : List.length cols = nc).
  { apply rmapM_Forall2 in Ec. clear - Ec. rewrite <- (seq_length nc 0). induction Ec; cbn; congruence. }
  intros H. destruct cols as [|x [|y cols]]; try discriminate; injection H as <-; cbn [mg_means mg_cov];
    (split; [rewrite <- Hlc; cbn; lia|]; split; [exact Hl|]; split; [exact Hk|]; eexists; split; [reflexivity|]; split; [exact Hlc|reflexivity]).
Qed.

(** Element of a matrix. *)
Definition entry {T} (m : list (list T)) (i j : nat) : option T := match nth_error m i with Some r => nth_error r j | None => None end.

Lemma entry_cov_matrix {T} (o : ops T) lower upper cols i j :
  (i < List.length cols)%nat -> (j < List.length cols)%nat ->
  entry (cov_matrix o lower upper cols) i j =
  Some (if Nat.eqb i j then std o (nth i cols []) else clamped_cov o lower upper (nth i cols []) (nth j cols [])).
Proof.
  intros Hi Hj. unfold entry, cov_matrix. rewrite nth_error_tabulate by exact Hi. rewrite nth_error_tabulate by exact Hj. reflexivity.
Qed.

Lemma dot_comm s x y : dot (b64_ops s) x y = dot (b64_ops s) y x.
Proof.
  unfold dot. cbn [b64_ops o_sum o_mul]. f_equal. revert y. induction x as [|a x IH]; intros [|b y]; cbn; try reflexivity.
  rewrite IH. f_equal. apply fmul_comm.
Qed.

(** The learned matrix is symmetric (with floats, whatever the summation order). *)
Lemma cov_symmetric s lower upper cols n i j v :
  Forall (fun c => List.length c = n) cols ->
  entry (cov_matrix (b64_ops s) lower upper cols) i j = Some v ->
  entry (cov_matrix (b64_ops s) lower upper cols) j i = Some v.
Proof.
  intros Hlen H.
  assert (Hi : (i < List.length cols)%nat /\ (j < List.length cols)%nat).
  { unfold entry, cov_matrix in H. destruct (Nat.lt_ge_cases i (List.length cols)) as [Hi|Hi].
    - rewrite nth_error_tabulate in H by exact Hi. split; [exact Hi|].
      assert (Hs : nth_error (tabulate (List.length cols) (fun j => if Nat.eqb i j then std (b64_ops s) (nth i cols []) else clamped_cov (b64_ops s) lower upper (nth i cols []) (nth j cols []))) j <> None) by congruence.
      apply nth_error_Some in Hs. rewrite tabulate_length in Hs. exact Hs.
    - assert (Hn : nth_error (tabulate (List.length cols) (fun i => tabulate (List.length cols) (fun j => if Nat.eqb i j then std (b64_ops s) (nth i cols []) else clamped_cov (b64_ops s) lower upper (nth i cols []) (nth j cols [])))) i = None).
      { apply nth_error_None. rewrite tabulate_length. exact Hi. }
      rewrite Hn in H. discriminate. }
  destruct Hi as [Hi Hj]. rewrite entry_cov_matrix in * by assumption. rewrite <- H. f_equal. rewrite Nat.eqb_sym.
  destruct (Nat.eqb_spec i j) as [->|Hne]; [reflexivity|].
  unfold clamped_cov. f_equal. f_equal. unfold cov_entry. rewrite dot_comm. f_equal. f_equal. f_equal. f_equal.
  rewrite Forall_forall in Hlen. rewrite !Hlen by (apply nth_In; assumption). reflexivity.
Qed.

Lemma clamped_cov_between s lower upper x y :
  fle lower upper = true -> let v := clamped_cov (b64_ops s) lower upper x y in
  isnan v = false -> fle lower v = true /\ fle v upper = true.
Proof.
  intros Hb. destruct (fle_not_nan _ _ Hb) as [Nl Nu]. cbv zeta. unfold clamped_cov, lower_to, raise_to. cbn [b64_ops o_ltb].
  set (q := cov_entry (b64_ops s) x y). destruct (flt q lower) eqn:E1.
  - pose proof (fle_flt_false _ _ Hb) as E2. rewrite E2. intros _. split; [apply fle_refl, Nl|exact Hb].
  - destruct (flt upper q) eqn:E2; intros Nq.
    + split; [exact Hb|apply fle_refl, Nu].
    + split; apply flt_false_fle; assumption.
Qed.
