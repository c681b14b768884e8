(** Facts about the initialisers. *)
From Coq Require Import String List ZArith Bool Lia Reals Lra.
From Flocq Require Import Core IEEE754.BinarySingleNaN.
From Verif Require Import PyBase B64 B64More NdArray Rand RandThms Models Inits ModelThms Kahan CatThms Interval.
Import ListNotations.
Open Scope nat_scope.

(** A float matrix of the given shape. *)
Definition float_matrix (nr nc : nat) (a : arr) : Prop :=
  a_dt a = DFloat /\ a_nc a = nc /\ a_len a = nr /\
  Forall (fun r => List.length r = nc /\ Forall (fun c => exists x, c = CF x) r) (a_rows a).

Lemma float_arr_matrix nr nc f : float_matrix nr nc (float_arr nr nc f).
Proof.
  unfold float_arr. split; [reflexivity|]. split; [reflexivity|]. split; [unfold a_len; apply tabulate_length|].
  apply Forall_tabulate. intros i _. split; [apply tabulate_length|]. apply Forall_tabulate. intros j _. eauto.
Qed.

Lemma float_arr_nth nr nc f i j : i < nr -> j < nc -> nth_error (nth i (a_rows (float_arr nr nc f)) []) j = Some (CF (f i j)).
Proof. intros Hi Hj. cbn [float_arr a_rows]. rewrite nth_tabulate by exact Hi. apply (nth_error_tabulate nc (fun j => CF (f i j))), Hj. Qed.

(* ------------------------------------------------------------------ *)
(** ** UniformGenInit *)

(** Bound of variable [j] as the user gave it. *)
Definition bound_of (b : bound) (j : nat) (x : f64) : Prop :=
  match b with
  | BNone => False
  | BNum p => x = num_to_f p
  | BList _ l => nth_error l j = Some x
  end.

(** Bounds given for every variable: a number, a list, or an array of the right length. *)
Definition full_bound (n : nat) (b : bound) : Prop :=
  match b with BNone => False | BNum _ => True | BList _ l => List.length l = n end.

Lemma full_bound_at n b j : j < n -> full_bound n b -> bound_of b j (bound_at b j).
Proof.
  intros Hj H. destruct b as [|p|lst l]; cbn in *; [destruct H|reflexivity|].
  rewrite (nth_error_nth' l fnan) by lia. f_equal. unfold bidx.
  destruct (Nat.eqb_spec (List.length l) 1); [replace j with 0 by lia|]; reflexivity.
Qed.

Lemma full_bound_broadcasts n b : full_bound n b -> broadcasts (bound_len b) n = true.
Proof.
  destruct b as [|p|lst l]; cbn; intros H; [destruct H| |subst]; unfold broadcasts; try rewrite Nat.eqb_refl; cbn; try reflexivity; try apply orb_true_r.
Qed.

(** Sampling succeeds and every value lies between the bounds of its variable. *)
Lemma uniform_sample_spec {W} (g : rng W) (n : nat) lo hi u size w :
  unif_ok g -> uniform_new (Z.of_nat n) lo hi = Ok u -> full_bound n lo -> full_bound n hi -> 0 < n ->
  (forall j l h, j < n -> bound_of lo j l -> bound_of hi j h -> isfin l = true /\ isfin h = true /\ fle l h = true /\ isfin (fsub h l) = true) ->
  (0 <= size)%Z ->
  exists a w', uniform_sample g u size w = (Ok a, w') /\ float_matrix (Z.to_nat size) n a /\
    forall i j, i < Z.to_nat size -> j < n -> exists x l h, nth_error (nth i (a_rows a) []) j = Some (CF x) /\
      bound_of lo j l /\ bound_of hi j h /\ fle l x = true /\ fle x h = true.
Proof.
  intros Hg Hnew Hlo Hhi Hn Hfin Hs. unfold uniform_new in Hnew. destruct (_ && _); [|discriminate]. injection Hnew as <-.
  unfold uniform_sample. cbn [ui_n ui_lo ui_hi]. destruct (Z.ltb_spec (Z.of_nat n) 0); [lia|]. rewrite Nat2Z.id.
  unfold np_uniform.
  set (G := if (match lo, hi with BList _ _, _ | _, BList _ _ =>
            match bres (bound_len lo) (bound_len hi) with None => true | Some _ => false end
          | _, _ => false end) then (Raise ValueError, w)
      else if negb (forallb (fun j => isfin (fsub (bound_at hi j) (bound_at lo j)))
                            (seq 0 (Nat.max (bound_len lo) (bound_len hi)))) then (Raise OverflowError, w)
      else if (size <? 0)%Z then (Raise ValueError, w)
      else if negb (broadcasts (bound_len lo) n && broadcasts (bound_len hi) n) then (Raise ValueError, w)
      else
        let (u, w') := g_unif g (Z.to_nat size) n w in
        (Ok (float_arr (Z.to_nat size) n (fun i j =>
           fadd (bound_at lo j) (fmul (fsub (bound_at hi j) (bound_at lo j)) (u i j)))), w')).
  assert (HG : exists a w', G = (Ok a, w') /\ float_matrix (Z.to_nat size) n a /\
    forall i j, i < Z.to_nat size -> j < n -> exists x l h, nth_error (nth i (a_rows a) []) j = Some (CF x) /\
      bound_of lo j l /\ bound_of hi j h /\ fle l x = true /\ fle x h = true).
  { unfold G. clear G.
    assert (C1 : (match lo, hi with BList _ _, _ | _, BList _ _ => match bres (bound_len lo) (bound_len hi) with None => true | Some _ => false end | _, _ => false end) = false).
    { assert (B : exists k, bres (bound_len lo) (bound_len hi) = Some k).
      { destruct lo as [|p|? l], hi as [|q|? l']; cbn in *; try tauto; unfold bres; cbn; rewrite ?Hlo, ?Hhi, ?Nat.eqb_refl; try (destruct (Nat.eqb_spec n 1); eauto); try (destruct n as [|[|]]; cbn; eauto); eauto. }
      destruct B as [k ->]. destruct lo, hi; reflexivity. }
    rewrite C1.
    assert (C2 : forallb (fun j => isfin (fsub (bound_at hi j) (bound_at lo j))) (seq 0 (Nat.max (bound_len lo) (bound_len hi))) = true).
    { apply forallb_forall. intros j Hj. apply in_seq in Hj.
      assert (Hjn : j < n) by (destruct lo as [|p|? l], hi as [|q|? l']; cbn [bound_len full_bound] in *; try tauto; lia).
      destruct (Hfin j (bound_at lo j) (bound_at hi j) Hjn) as (_ & _ & _ & H4); [apply (full_bound_at n); assumption|apply (full_bound_at n); assumption|exact H4]. }
    rewrite C2. cbn [negb]. destruct (Z.ltb_spec size 0); [lia|].
    rewrite (full_bound_broadcasts n lo Hlo), (full_bound_broadcasts n hi Hhi). cbn [andb negb].
    pose proof (Hg (Z.to_nat size) n w) as Hu. destruct (g_unif g (Z.to_nat size) n w) as [u w']. cbn [fst] in Hu.
    eexists _, w'. split; [reflexivity|]. split; [apply float_arr_matrix|]. intros i j Hi Hj.
    rewrite float_arr_nth by assumption. exists (fadd (bound_at lo j) (fmul (fsub (bound_at hi j) (bound_at lo j)) (u i j))), (bound_at lo j), (bound_at hi j).
    assert (Bl : bound_of lo j (bound_at lo j)) by (apply (full_bound_at n); assumption).
    assert (Bh : bound_of hi j (bound_at hi j)) by (apply (full_bound_at n); assumption).
    destruct (Hfin j _ _ Hj Bl Bh) as (F1 & F2 & F3 & F4). destruct (Hu i j) as [U0 U1].
    destruct (affine_between _ _ _ F1 F2 F3 F4 U0 U1) as (_ & A & B). repeat split; assumption. }
  destruct lo as [|p|? l], hi as [|q|? l']; cbn in Hlo, Hhi; try tauto; exact HG.
Qed.

(** Without bounds nothing can be sampled. *)
Lemma uniform_none {W} (g : rng W) n u size w :
  uniform_new n BNone BNone = Ok u -> (0 <= n)%Z -> uniform_sample g u size w = (Raise TypeError, w).
Proof.
  intros H Hn. cbn in H. injection H as <-. unfold uniform_sample. cbn. destruct (Z.ltb_spec n 0); [lia|reflexivity].
Qed.

(* ------------------------------------------------------------------ *)
(** ** Widths *)

Lemma np_normal_ok {W} (g : rng W) loc scale size n w a w' :
  np_normal g loc scale size n w = (Ok a, w') -> float_matrix (Z.to_nat size) n a /\ (0 <= size)%Z.
Proof.
  unfold np_normal. destruct (existsb neg_signed scale); [discriminate|]. destruct (Z.ltb_spec size 0); [discriminate|].
  destruct (negb _); [discriminate|]. destruct (g_gauss g (Z.to_nat size) n w) as [z w1]. intros H0. injection H0 as <- <-.
  split; [apply float_arr_matrix|assumption].
Qed.

Lemma np_normal_total {W} (g : rng W) loc scale size n w :
  existsb neg_signed scale = false -> (0 <= size)%Z -> List.length loc = n -> List.length scale = n ->
  exists a w', np_normal g loc scale size n w = (Ok a, w').
Proof.
  intros H1 H2 H3 H4. unfold np_normal. rewrite H1. destruct (Z.ltb_spec size 0); [lia|]. rewrite H3, H4.
  unfold broadcasts. rewrite Nat.eqb_refl. cbn. destruct (g_gauss g (Z.to_nat size) n w). eauto.
Qed.

Lemma uniform_width {W} (g : rng W) u size w a w' : uniform_sample g u size w = (Ok a, w') -> a_nc a = Z.to_nat (ui_n u) /\ a_len a = Z.to_nat size.
Proof.
  unfold uniform_sample. destruct (ui_n u <? 0)%Z; [discriminate|]. unfold np_uniform.
  destruct (ui_lo u) as [|p|? l], (ui_hi u) as [|q|? l']; intros H0; try discriminate;
    repeat (match type of H0 with (if ?b then _ else _) = _ => destruct b; try discriminate end);
    destruct (g_unif g _ _ w); injection H0 as <- <-; (split; [reflexivity|]; unfold a_len; cbn; apply tabulate_length).
Qed.

Lemma unigauss_init_width {W} (g : rng W) i size w a w' : unigauss_init_sample g i size w = (Ok a, w') -> a_nc a = Z.to_nat (gi_n i) /\ a_len a = Z.to_nat size.
Proof. intros H. apply np_normal_ok in H as [(_ & H1 & H2 & _) _]. auto. Qed.

Lemma unibin_init_width {W} (g : rng W) n means size w a w' :
  unibin_init_sample g (unibin_init_new n means) size w = (Ok a, w') ->
  (means = [] \/ List.length means = Z.to_nat n) -> bit_arr (Z.to_nat n) a /\ a_len a = Z.to_nat size.
Proof.
  intros H Hm. unfold unibin_init_sample in H. apply unibin_sample_spec in H as (_ & H1 & H2 & H3 & H4 & _).
  assert (Hw : a_nc a = Z.to_nat n).
  { unfold unibin_init_new in H3. cbn [bi_pm ub_n ub_pm] in H3. assert (Hl : List.length (match means with [] => repeat (lit 1 (-1)) (Z.to_nat n) | _ => means end) = Z.to_nat n).
    { destruct means; [apply repeat_length|destruct Hm as [Hm|Hm]; [discriminate|exact Hm]]. }
    rewrite Hl in H3. unfold bres in H3. rewrite Nat.eqb_refl in H3. congruence. }
  split; [|exact H2]. rewrite <- Hw. split; [exact H1|]. split; [reflexivity|exact H4].
Qed.

Lemma unibin_init_total {W} (g : rng W) n means size w :
  (means = [] \/ List.length means = Z.to_nat n) -> (0 <= size)%Z ->
  exists a w', unibin_init_sample g (unibin_init_new n means) size w = (Ok a, w').
Proof.
  intros Hm Hs. unfold unibin_init_sample, unibin_sample. destruct (Z.ltb_spec size 0); [lia|]. unfold unibin_init_new. cbn [bi_pm ub_n ub_pm].
  assert (Hl : List.length (match means with [] => repeat (lit 1 (-1)) (Z.to_nat n) | _ => means end) = Z.to_nat n).
  { destruct means; [apply repeat_length|destruct Hm as [Hm|Hm]; [discriminate|exact Hm]]. }
  rewrite Hl. unfold bres. rewrite Nat.eqb_refl. destruct (g_unif g _ _ w). eauto.
Qed.

Lemma cat_init_width {W} (g : rng W) str_of s n values freq i size w a w' :
  cat_init_new s n values freq = Ok i -> cat_init_sample g str_of i size w = (Ok a, w') -> a_nc a = Z.to_nat n /\ a_len a = if 0 <? Z.to_nat n then Z.to_nat size else 0.
Proof.
  unfold cat_init_new. intros H1 H2.
  assert (Hc : cat_check s (Z.to_nat n) values freq = Ok tt) by (destruct (cat_check s (Z.to_nat n) values freq) as [[]|]; [reflexivity|discriminate]).
  rewrite Hc in H1. injection H1 as <-. unfold cat_init_sample in H2. cbn [ci_n ci_values ci_freq] in H2.
  destruct (draw_columns _ _ w) as [[cols|e] w1] eqn:E; [|discriminate]. injection H2 as <- <-. apply draw_columns_ok in E.
  assert (Hl : List.length cols = List.length (firstn (Z.to_nat n) (combine values freq))) by (clear - E; induction E; cbn; congruence).
  assert (Hk : forall k values freq, cat_check s k values freq = Ok tt -> List.length (firstn k (combine values freq)) = k).
  { clear. induction k as [|k IH]; intros [|v vs] [|f fs] H; cbn in *; try reflexivity; try discriminate.
    destruct (negb _); [discriminate|]. destruct (fle _ _); [|discriminate]. f_equal. apply IH, H. }
  rewrite (Hk _ _ _ Hc) in Hl. split; [rewrite frame_nc; exact Hl|]. rewrite <- Hl.
  destruct cols as [|c cols]; [reflexivity|]. cbn [List.length Nat.ltb Nat.leb]. apply frame_len. discriminate.
Qed.

(* ------------------------------------------------------------------ *)
(** ** CategoricalSampling *)

Lemma cat_check_facts s k : forall values freq, cat_check s k values freq = Ok tt ->
  forall j, j < k -> exists v f, nth_error values j = Some v /\ nth_error freq j = Some f /\
    nth_error (combine values freq) j = Some (v, f) /\ List.length v = List.length f /\ fle (fabs (fsub (s f) fone)) freq_tol = true.
Proof.
  induction k as [|k IH]; intros [|v vs] [|f fs] H j Hj; try lia; cbn [cat_check] in H; try discriminate.
  destruct (Nat.eqb_spec (List.length v) (List.length f)) as [E|]; cbn [negb] in H; [|discriminate].
  destruct (fle (fabs (fsub (s f) fone)) freq_tol) eqn:E'; [|discriminate].
  destruct j as [|j]; cbn [nth_error combine]; [exists v, f; auto|]. apply IH; [exact H|lia].
Qed.

(** Declared categories: strings only or integers only, with frequencies in [0, 1]. *)
Definition category (v : list cell) (f : list f64) : Prop :=
  discrete v /\ Forall prob f /\ (Z.of_nat (List.length f) <= 2 ^ 53)%Z.

(** Every value sampled is a declared one of positive frequency. *)
Lemma cat_init_spec {W} (g : rng W) str_of s n values freq i size w a w' :
  unif_ok g -> cat_init_new s n values freq = Ok i ->
  (forall j v f, nth_error values j = Some v -> nth_error freq j = Some f -> category v f) ->
  cat_init_sample g str_of i size w = (Ok a, w') ->
  a_nc a = Z.to_nat n /\ (0 < Z.to_nat n -> a_len a = Z.to_nat size) /\ Forall (fun r => List.length r = Z.to_nat n) (a_rows a) /\
  (0 < Z.to_nat n -> a_dt a <> DFloat) /\
  forall j v f, j < Z.to_nat n -> nth_error values j = Some v -> nth_error freq j = Some f ->
    Forall (fun c => exists k q, nth_error v k = Some c /\ nth_error f k = Some q /\ flt (Z2f 0) q = true) (column j (a_rows a)).
Proof.
  unfold cat_init_new. intros Hg H1 Hcat H2.
  assert (Hc : cat_check s (Z.to_nat n) values freq = Ok tt) by (destruct (cat_check s (Z.to_nat n) values freq) as [[]|]; [reflexivity|discriminate]).
  rewrite Hc in H1. injection H1 as <-. unfold cat_init_sample in H2. cbn [ci_n ci_values ci_freq] in H2.
  destruct (draw_columns _ _ w) as [[cols|e] w1] eqn:E; [|discriminate]. injection H2 as <- <-. apply draw_columns_ok in E.
  pose proof (cat_check_facts s _ _ _ Hc) as Hf.
  assert (Hlen : List.length (firstn (Z.to_nat n) (combine values freq)) = Z.to_nat n).
  { apply firstn_length_le. destruct (Nat.le_gt_cases (Z.to_nat n) (List.length (combine values freq))) as [|Hlt]; [assumption|].
    destruct (Hf _ Hlt) as (v & f & _ & _ & Hn & _). assert (List.length (combine values freq) < List.length (combine values freq)) by (apply nth_error_Some; congruence). lia. }
  assert (Hl : List.length cols = Z.to_nat n) by (rewrite <- Hlen; clear - E; induction E; cbn; congruence).
  assert (Hcols : forall j col, nth_error cols j = Some col -> j < Z.to_nat n /\ List.length col = Z.to_nat size /\ Forall not_float col /\
     forall v f, nth_error values j = Some v -> nth_error freq j = Some f ->
       Forall (fun c => exists k q, nth_error v k = Some c /\ nth_error f k = Some q /\ flt (Z2f 0) q = true) col).
  { intros j col Hcol.
    assert (Hj : j < Z.to_nat n) by (rewrite <- Hl; apply nth_error_Some; congruence).
    assert (Hd : exists vf, nth_error (firstn (Z.to_nat n) (combine values freq)) j = Some vf /\ exists w1 w2, np_choice g (homogenise str_of (fst vf)) size (snd vf) w1 = (Ok col, w2)).
    { clear - E Hcol. revert j Hcol. induction E as [|x c l cs Hxc _ IH]; intros [|j] Hcol; cbn in *; try discriminate.
      - injection Hcol as ->. eauto.
      - apply IH, Hcol. }
    destruct Hd as ([v f] & Hvf & u1 & u2 & Hdraw). cbn [fst snd] in Hdraw.
    destruct (Hf j Hj) as (v' & f' & Hv & Hf' & Hvf' & Hlvf & _).
    assert (Evf : nth_error (firstn (Z.to_nat n) (combine values freq)) j = nth_error (combine values freq) j).
    { clear - Hj. revert j Hj. generalize (combine values freq) as l. induction (Z.to_nat n) as [|k IH]; intros l j Hj; [lia|].
      destruct l as [|x l], j as [|j]; cbn; try reflexivity. apply IH. lia. }
    rewrite Evf, Hvf' in Hvf. injection Hvf as -> ->.
    destruct (Hcat j v f Hv Hf') as (K1 & K2 & K3).
    destruct (choice_column g str_of v size f _ col _ Hg K2 K3 K1 Hdraw) as (C1 & C2 & C3).
    split; [exact Hj|]. split; [exact C1|]. split; [exact C3|]. intros v0 f0 Hv0 Hf0. rewrite Hv in Hv0. rewrite Hf' in Hf0. injection Hv0 as <-. injection Hf0 as <-.
    eapply Forall_impl; [|exact C2]. intros c (k & Hk & Hq).
    assert (Hkl : k < List.length f) by (rewrite <- Hlvf; apply nth_error_Some; congruence).
    exists k, (nth k f fnan). split; [exact Hk|]. split; [apply nth_error_nth'; exact Hkl|].
    rewrite Forall_forall in K2. destruct (prob_R _ (K2 (nth k f fnan) (nth_In _ _ Hkl))) as [Fq _].
    apply flt_fin; [exact Z2f_0_fin|exact Fq|]. rewrite Z2f_0_R. exact Hq. }
  assert (F1 : Forall (fun col => List.length col = Z.to_nat size) cols).
  { apply Forall_forall. intros col Hin. apply In_nth_error in Hin as [j Hj]. apply (Hcols j col Hj). }
  assert (F2 : Forall (Forall not_float) cols).
  { apply Forall_forall. intros col Hin. apply In_nth_error in Hin as [j Hj]. apply (Hcols j col Hj). }
  destruct cols as [|c0 cs] eqn:Ec.
  { cbn [List.length] in Hl. cbn [frame a_nc a_len a_rows]. split; [exact Hl|]. split; [lia|]. split; [constructor|]. split; [lia|]. intros j v f Hj. lia. }
  rewrite <- Ec in *.
  destruct (frame_cells (Z.to_nat size) cols ltac:(rewrite Ec; discriminate) F1 F2) as (A1 & A2 & A3 & _ & A5). cbv zeta in *.
  split; [congruence|]. split; [intros _; exact A2|]. split; [rewrite A1, Hl in A3; exact A3|].
  split; [intros _; rewrite frame_wide by (rewrite Ec; discriminate); apply frame_no_floats, F2|].
  intros j v f Hj Hv Hf'. rewrite A5. destruct (Nat.ltb_spec j (List.length cols)); [|lia].
  apply (Hcols j); [apply nth_error_nth'; lia|exact Hv|exact Hf'].
Qed.

(** Frequencies whose exact sum is one up to 2^-28 are always accepted when sampling. *)
Lemma cat_init_total {W} (g : rng W) str_of s n values freq i size w :
  unif_ok g -> cat_init_new s n values freq = Ok i ->
  (forall j v f, nth_error values j = Some v -> nth_error freq j = Some f ->
     category v f /\ (Z.of_nat (List.length f) <= 2 ^ 22)%Z /\ (Rabs (real_sum f - 1) <= bpow radix2 (-28))%R) ->
  (0 <= size)%Z ->
  exists a w', cat_init_sample g str_of i size w = (Ok a, w').
Proof.
  unfold cat_init_new. intros Hg H1 Hcat Hs.
  assert (Hc : cat_check s (Z.to_nat n) values freq = Ok tt) by (destruct (cat_check s (Z.to_nat n) values freq) as [[]|]; [reflexivity|discriminate]).
  rewrite Hc in H1. injection H1 as <-. unfold cat_init_sample. cbn [ci_n ci_values ci_freq].
  pose proof (cat_check_facts s _ _ _ Hc) as Hf.
  destruct (draw_columns_total (fun vf => np_choice g (homogenise str_of (fst vf)) size (snd vf)) (firstn (Z.to_nat n) (combine values freq))) with (w := w) as [cols Hcols].
  - intros [v f] w1 Hin. cbn [fst snd].
    assert (Hjj : exists j, nth_error (combine values freq) j = Some (v, f) /\ nth_error (firstn (Z.to_nat n) (combine values freq)) j = Some (v, f)).
    { apply In_nth_error in Hin as [j Hj]. exists j. split; [|exact Hj].
      clear - Hj. revert j Hj. generalize (combine values freq) as l. induction (Z.to_nat n) as [|k IH]; intros [|x l] [|j] Hj; cbn in *; try discriminate; auto. }
    destruct Hjj as (j & Hj & Hj2).
    assert (Hjn : j < Z.to_nat n).
    { assert (j < List.length (firstn (Z.to_nat n) (combine values freq))) by (apply nth_error_Some; congruence). rewrite firstn_length in H. lia. }
    destruct (Hf j Hjn) as (v' & f' & Hv & Hf' & Hvf' & Hlvf & _). rewrite Hj in Hvf'. injection Hvf' as <- <-.
    destruct (Hcat j v f Hv Hf') as ((K1 & K2 & K3) & K4 & K5).
    rewrite (homogenise_discrete str_of v K1).
    destruct (np_choice_spec g v size f w1 Hg K2 K3) as [(out & Ho & _)|Hr]; [eauto|exfalso].
    assert (Hpok : probs_ok f = true) by (apply probs_ok_near; assumption).
    unfold np_choice in Hr. destruct (Z.ltb_spec size 0); [lia|].
    assert (Hne : List.length v <> 0).
    { intros E. rewrite E in Hlvf. destruct f; [|discriminate]. cbn in K5. rewrite Rminus_0_l, Rabs_Ropp, Rabs_R1 in K5.
      assert (bpow radix2 (-28) < 1)%R by (change 1%R with (bpow radix2 0); apply bpow_lt; lia). lra. }
    destruct (Nat.eqb_spec (List.length v) 0); [congruence|]. cbn [andb] in Hr. rewrite Hlvf, Nat.eqb_refl in Hr. cbn [negb] in Hr.
    rewrite Hpok in Hr. cbn [negb] in Hr.
    destruct (g_unif g (Z.to_nat size) 1 w1) as [u w2] eqn:Eu. cbn [fst] in Hr.
    destruct (gather_in_range (tabulate (Z.to_nat size) (fun i => searchsorted_right (cdf f) (u i 0))) v) as [o Ho]; [|congruence].
    apply Forall_tabulate. intros k _. pose proof (Hg (Z.to_nat size) 1 w1 k 0) as Hu. rewrite Eu in Hu. cbn [fst] in Hu. destruct Hu as [U0 U1].
    rewrite Hlvf. apply (choice_pos f K3 K2 (probs_ok_pos _ K2 Hpok) _ U0 U1).
  - destruct (draw_columns _ _ w) as [r w1]. cbn in Hcols. subst r. eauto.
Qed.
