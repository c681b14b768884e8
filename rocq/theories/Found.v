(** How likely a run of UMDAd evaluates a given string of bits. *)
From Coq Require Import String List ZArith Bool Lia Reals Lra.
From Flocq Require Import Core IEEE754.BinarySingleNaN.
From Verif Require Import PyBase B64 B64More NdArray Eda EdaInv Spec LoopThms Rand RandThms Models ModelThms Kahan ChoiceMore ModelMore FloatSum Chance
  Inits InitThms Stock StockInv StockAll DrawnStock Explore MaxLik Mean LoopTape.
Import ListNotations.
Open Scope R_scope.

(** A solution of UMDAd. *)
Definition bits (bs : list bool) : row := map (fun b : bool => CI (if b then 1 else 0)%Z) bs.
Fixpoint is_bits (bs : list bool) (r : row) : bool :=
  match bs, r with
  | [], [] => true
  | b :: bs', CI z :: r' => Z.eqb z (if b then 1 else 0) && is_bits bs' r'
  | _, _ => false
  end.
Lemma is_bits_spec bs : forall r, is_bits bs r = true <-> r = bits bs.
Proof.
  induction bs as [|b bs IH]; intros [|x r]; cbn [is_bits bits map]; [split; reflexivity|split; discriminate|split; discriminate|].
  destruct x as [z|z|z]; try (split; [discriminate|intros H; discriminate]).
  rewrite andb_true_iff, Z.eqb_eq, IH. split; [intros [-> ->]; reflexivity|]. intros H. injection H as -> ->. split; reflexivity.
Qed.

(** The generation contains the solution. *)
Definition contains (bs : list bool) (g : arr) : bool := existsb (is_bits bs) (a_rows g).
(** A run evaluated the solution. *)
Definition evaluates (bs : list bool) (tr : list ev) : bool := existsb (fun gv => contains bs (fst gv)) (gens tr).
Lemma evaluates_spec bs tr : evaluates bs tr = true <-> exists g vals, In (g, vals) (gens tr) /\ In (bits bs) (a_rows g).
Proof.
  unfold evaluates, contains. rewrite existsb_exists. split.
  - intros ([g vals] & Hg & H). apply existsb_exists in H as (r & Hr & E). apply is_bits_spec in E. subst r. exists g, vals. split; assumption.
  - intros (g & vals & Hg & Hr). exists (g, vals). split; [exact Hg|]. apply existsb_exists. exists (bits bs). split; [exact Hr|]. apply is_bits_spec. reflexivity.
Qed.

(** The probability of one row, from the chances of a 1 at either bound. *)
Definition row_chance (ql qh : R) (bs : list bool) : R := Rprod (map (fun b : bool => if b then ql else 1 - qh) bs).

(* ---------------- one row ---------------- *)

(** These draws give these bits. *)
Fixpoint hit (ps : list f64) (bs : list bool) (v : list Z) : bool :=
  match ps, bs, v with
  | p :: ps', b :: bs', k :: v' => Bool.eqb (flt (unit53 k) p) b && hit ps' bs' v'
  | [], [], [] => true
  | _, _, _ => false
  end.

(** A probability between the bounds: its counted chance of a 1. *)
Definition between (ql qh : R) (p : f64) : Prop := exists q, chance (fun x => flt x p = true) q /\ ql <= q <= qh.

Lemma ind_and a b : ind (a && b) = ind a * ind b.
Proof. unfold ind. destruct a, b; cbn; lra. Qed.
Lemma ind_unit b : 0 <= ind b <= 1. Proof. destruct b; cbn; lra. Qed.

Lemma row_chance_unit ql qh bs : 0 <= ql <= qh -> qh <= 1 -> 0 <= row_chance ql qh bs <= 1.
Proof.
  intros H1 H2. unfold row_chance, Rprod. induction bs as [|b bs IH]; cbn [map fold_right]; [lra|].
  set (P := fold_right _ _ _) in *. assert (0 <= (if b then ql else 1 - qh) <= 1) by (destruct b; lra). split; [apply Rmult_le_pos; lra|].
  apply Rle_trans with (1 * 1); [apply Rmult_le_compat; lra|lra].
Qed.

Lemma hit_chance ql qh : 0 <= ql <= qh -> qh <= 1 -> forall bs ps, List.length ps = List.length bs -> Forall (between ql qh) ps ->
  row_chance ql qh bs <= mean draws (List.length bs) (fun v => ind (hit ps bs v)).
Proof.
  intros H1 H2. induction bs as [|b bs IH]; intros [|p ps] Hl Hp; try discriminate; cbn [List.length mean]; [cbn; lra|].
  inversion Hp as [|? ? (q & Hq & Rq) Hp']; subst. injection Hl as Hl. specialize (IH ps Hl Hp').
  assert (E : forall k, mean draws (List.length bs) (fun v => ind (hit (p :: ps) (b :: bs) (k :: v)))
      = mean draws (List.length bs) (fun v => ind (hit ps bs v)) * ind (Bool.eqb (flt (unit53 k) p) b)).
  { intros k. rewrite Rmult_comm, <- mean_scal. apply (mean_ext draws draws_nonempty). intros v _. cbn [hit]. apply ind_and. }
  rewrite (map_ext _ _ E). rewrite (avg_scal draws _ (fun k => ind (Bool.eqb (flt (unit53 k) p) b))).
  change (row_chance ql qh (b :: bs)) with ((if b then ql else 1 - qh) * row_chance ql qh bs). rewrite Rmult_comm.
  destruct (row_chance_unit ql qh bs H1 H2) as [C1 C2]. apply Rmult_le_compat; [exact C1|destruct b; lra|exact IH|].
  destruct b.
  - rewrite (map_ext _ (fun k => ind (flt (unit53 k) p))) by (intros k; destruct (flt _ _); reflexivity).
    rewrite (avg_chance (fun x => flt x p) q Hq). lra.
  - rewrite (map_ext _ (fun k => ind (negb (flt (unit53 k) p)))) by (intros k; destruct (flt _ _); reflexivity).
    rewrite (avg_chance_not (fun x => flt x p) q Hq). lra.
Qed.

(* ---------------- a generation ---------------- *)

Fixpoint missed (ps : list f64) (bs : list bool) (r : nat) (v : list Z) : bool :=
  match r with
  | O => true
  | S r' => negb (hit ps bs (firstn (List.length bs) v)) && missed ps bs r' (skipn (List.length bs) v)
  end.

Lemma missed_chance ql qh bs ps : 0 <= ql <= qh -> qh <= 1 -> List.length ps = List.length bs -> Forall (between ql qh) ps ->
  forall r, mean draws (r * List.length bs) (fun v => ind (missed ps bs r v)) <= (1 - row_chance ql qh bs) ^ r.
Proof.
  intros H1 H2 Hl Hp. pose proof (hit_chance ql qh H1 H2 bs ps Hl Hp) as Hh. destruct (row_chance_unit ql qh bs H1 H2) as [C1 C2].
  induction r as [|r IH]; [cbn; lra|]. cbn [Nat.mul pow]. rewrite mean_app.
  assert (E : mean draws (List.length bs) (fun v => mean draws (r * List.length bs) (fun t => ind (missed ps bs (S r) (v ++ t))))
            = mean draws (List.length bs) (fun v => mean draws (r * List.length bs) (fun t => ind (missed ps bs r t)) * (1 - ind (hit ps bs v)))).
  { apply (mean_ext draws draws_nonempty). intros v [Lv _]. rewrite Rmult_comm, <- mean_scal. apply (mean_ext draws draws_nonempty). intros t _.
    cbn [missed]. rewrite <- Lv, firstn_app, skipn_app, Nat.sub_diag, firstn_all, skipn_all. cbn [firstn skipn]. rewrite app_nil_r. cbn [app].
    rewrite ind_and. f_equal. destruct (hit ps bs v); cbn; lra. }
  rewrite E, mean_scal, mean_minus, (mean_const draws draws_nonempty). rewrite Rmult_comm.
  apply Rmult_le_compat; [|apply (mean_ge0 draws draws_nonempty); intros; apply ind_unit|lra|exact IH].
  assert (M : mean draws (List.length bs) (fun v => ind (hit ps bs v)) <= mean draws (List.length bs) (fun _ => 1)).
  { apply (mean_le draws draws_nonempty). intros v _. apply ind_unit. }
  rewrite (mean_const draws draws_nonempty) in M. lra.
Qed.

Lemma tabulate_S {A} n (f : nat -> A) : tabulate (S n) f = f O :: tabulate n (fun i => f (S i)).
Proof. unfold tabulate. cbn [seq map]. f_equal. rewrite <- seq_shift, map_map. reflexivity. Qed.
Lemma tabulate_ext {A} n (f g : nat -> A) : (forall i, (i < n)%nat -> f i = g i) -> tabulate n f = tabulate n g.
Proof. intros H. unfold tabulate. apply map_ext_in. intros i Hi. apply in_seq in Hi. apply H. lia. Qed.
Lemma nth_skip {A} n (l : list A) d : forall i, nth i (skipn n l) d = nth (n + i) l d.
Proof. revert l. induction n as [|n IH]; intros l i; [reflexivity|]. destruct l as [|x l]; cbn [skipn Nat.add]; [destruct i; reflexivity|apply IH]. Qed.

Definition drawn_row (ps : list f64) (n : nat) (v : list Z) (off : nat) : row :=
  tabulate n (fun j => CI (if flt (unit53 (nth (off + j) v 0%Z)) (nth j ps fnan) then 1 else 0)%Z).
Definition drawn_rows (ps : list f64) (n r : nat) (v : list Z) : list row := tabulate r (fun i => drawn_row ps n v (i * n)).

Lemma drawn_hit bs : forall ps v, List.length ps = List.length bs -> (List.length bs <= List.length v)%nat ->
  is_bits bs (drawn_row ps (List.length bs) v 0) = hit ps bs (firstn (List.length bs) v).
Proof.
  unfold drawn_row. induction bs as [|b bs IH]; intros [|p ps] v Hl Hv; try discriminate; [reflexivity|].
  destruct v as [|k v]; [cbn in Hv; lia|]. cbn [List.length firstn hit]. rewrite tabulate_S. cbn [is_bits nth Nat.add]. f_equal.
  - destruct (flt (unit53 k) p), b; reflexivity.
  - injection Hl as Hl. cbn [List.length] in Hv. apply (IH ps v Hl). lia.
Qed.

Lemma drawn_missed ps bs : List.length ps = List.length bs -> forall r v, (r * List.length bs <= List.length v)%nat ->
  existsb (is_bits bs) (drawn_rows ps (List.length bs) r v) = negb (missed ps bs r v).
Proof.
  intros Hl. unfold drawn_rows. induction r as [|r IH]; intros v Hv; [reflexivity|]. rewrite tabulate_S. cbn [existsb missed Nat.mul].
  cbn [Nat.mul] in Hv. rewrite drawn_hit by (try exact Hl; lia). rewrite negb_andb, negb_involutive. f_equal.
  rewrite <- IH by (rewrite skipn_length; lia). f_equal. apply tabulate_ext. intros i _. unfold drawn_row. apply tabulate_ext. intros j _.
  rewrite nth_skip. replace (List.length bs + (i * List.length bs + j))%nat with (S i * List.length bs + j)%nat by lia. reflexivity.
Qed.

(* ---------------- the generator ---------------- *)

(** A generator whose uniform numbers are k/2^53 for the next numbers k of a tape, row by row. *)
Definition tape_rng (g : rng (list Z)) : Prop :=
  forall r c w, g_unif g r c w = (fun i j => unit53 (nth (i * c + j) w 0%Z), skipn (r * c) w).

Lemma unibin_tape (g : rng (list Z)) m size n : tape_rng g -> ub_n m = n ->
  exists f : list Z -> res arr, forall seg t, List.length seg = (Z.to_nat size * n)%nat -> unibin_sample g m size (seg ++ t) = (f seg, t).
Proof.
  intros Hg Hn. exists (fun seg => fst (unibin_sample g m size seg)). intros seg t Hl. unfold unibin_sample. destruct (Z.ltb_spec size 0) as [Hs|Hs].
  - assert (E : Z.to_nat size = O) by lia. rewrite E in Hl. destruct seg; [reflexivity|discriminate].
  - rewrite !Hg, Hn. rewrite skipn_app, Hl, Nat.sub_diag, skipn_all2 by lia. cbn [skipn app].
    destruct (bres n (List.length (ub_pm m))) as [k|] eqn:Ek; [|reflexivity]. cbn [fst]. do 3 f_equal. apply tabulate_ext. intros i Hi. apply tabulate_ext. intros j Hj.
    assert (Hb : (bidx n j < n)%nat).
    { unfold bidx, bres in *. destruct (Nat.eqb_spec n 1); [lia|]. destruct (Nat.eqb_spec n (List.length (ub_pm m))); [assert (k = n) by congruence; lia|].
      destruct (Nat.eqb_spec (List.length (ub_pm m)) 1); [assert (k = n) by congruence; lia|discriminate]. }
    rewrite app_nth1 by (rewrite Hl; nia). reflexivity.
Qed.

Lemma unibin_drawn (g : rng (list Z)) m size n f : tape_rng g -> (0 <= size)%Z -> ub_n m = n -> List.length (ub_pm m) = n ->
  (forall seg t, List.length seg = (Z.to_nat size * n)%nat -> unibin_sample g m size (seg ++ t) = (f seg, t)) ->
  forall seg, List.length seg = (Z.to_nat size * n)%nat -> f seg = Ok (mkArr DInt n (drawn_rows (ub_pm m) n (Z.to_nat size) seg)).
Proof.
  intros Hg Hs Hn Hp Hf seg Hl. specialize (Hf seg [] Hl). rewrite app_nil_r in Hf. apply (f_equal fst) in Hf. cbn [fst] in Hf. rewrite <- Hf.
  unfold unibin_sample. destruct (Z.ltb_spec size 0); [lia|]. rewrite Hg, Hn, Hp, bres_same. cbn [fst]. do 2 f_equal. unfold drawn_rows. apply tabulate_ext. intros i Hi.
  unfold drawn_row. apply tabulate_ext. intros j Hj.
  assert (Hb : bidx n j = j) by (unfold bidx; destruct (Nat.eqb_spec n 1); [lia|reflexivity]). rewrite Hb. reflexivity.
Qed.

(* ---------------- the run ---------------- *)

Lemma chance_mono P P' q q' : chance P q -> chance P' q' -> (forall k, (0 <= k < 2 ^ 53)%Z -> P (unit53 k) -> P' (unit53 k)) -> q <= q'.
Proof.
  intros (l & N & H & ->) (l' & N' & H' & ->) Hi. apply Rmult_le_compat_r; [left; exact u_pos|]. apply le_INR, NoDup_incl_length; [exact N|].
  intros k Hk. apply H in Hk as [Hk HP]. apply H'. split; [exact Hk|apply Hi; assumption].
Qed.
Lemma chance_unit P q : chance P q -> 0 <= q <= 1.
Proof.
  intros (l & N & H & ->). pose proof u_pos. split; [apply Rmult_le_pos; [apply pos_INR|lra]|]. rewrite <- u_inv. apply Rmult_le_compat_r; [lra|].
  rewrite <- draws_length. apply le_INR, NoDup_incl_length; [exact N|]. intros k Hk. exact (proj2 (draws_in k) (proj1 (proj1 (H k) Hk))).
Qed.

Lemma clamped_between lo hi q p ql qh : prob lo -> prob hi -> flt lo hi = true -> prob q -> clamped lo hi q p ->
  chance (fun x => flt x lo = true) ql -> chance (fun x => flt x hi = true) qh -> between ql qh p.
Proof.
  intros Pl Ph Hlt Pq Hc Hql Hqh. destruct (prob_R _ Pl) as [Fl Rl]. destruct (prob_R _ Ph) as [Fh Rh]. destruct (prob_R _ Pq) as [Fq Rq].
  destruct (clamped_R _ _ _ _ Hc Hlt Fl Fh Fq) as [Fp Ep]. apply (flt_fin lo hi Fl Fh) in Hlt.
  assert (Bp : B2R lo <= B2R p <= B2R hi).
  { rewrite Ep. split; [apply Rmin_glb; [lra|apply Rmax_l]|apply Rmin_l]. }
  assert (Pp : prob p).
  { split; [apply (fle_fin _ _ (proj2 (Z2f_exact 0 ltac:(lia))) Fp); rewrite Z2f_0_R; lra|apply (fle_fin _ _ Fp fone_fin); rewrite fone_R; lra]. }
  destruct (chance_lt p Pp) as (qp & Hqp & _). exists qp. split; [exact Hqp|].
  split; (eapply chance_mono; [eassumption|eassumption|]); intros k Hk H; destruct (unit53_spec k Hk) as [F _];
    [apply (flt_fin _ _ F Fp)|apply (flt_fin _ _ F Fh)]; [apply (flt_fin _ _ F Fl) in H|apply (flt_fin _ _ F Fp) in H]; lra.
Qed.

Lemma bounds_chances lo hi ql qh : prob lo -> prob hi -> flt lo hi = true ->
  chance (fun x => flt x lo = true) ql -> chance (fun x => flt x hi = true) qh -> 0 <= ql <= qh /\ qh <= 1.
Proof.
  intros Pl Ph Hlt Hql Hqh. destruct (prob_R _ Pl) as [Fl Rl]. destruct (prob_R _ Ph) as [Fh Rh]. apply (flt_fin lo hi Fl Fh) in Hlt.
  pose proof (chance_unit _ _ Hql). pose proof (chance_unit _ _ Hqh). split; [|lra]. split; [lra|].
  eapply chance_mono; [exact Hql|exact Hqh|]. intros k Hk Hx. destruct (unit53_spec k Hk) as [F _]. apply (flt_fin _ _ F Fl) in Hx. apply (flt_fin _ _ F Fh). lra.
Qed.

Section Run.
Context {X : Type}.
Variable E : env X (list Z).
Hypothesis tape : tape_rng (e_rng E).
Variables (g : args) (vector : option (list f64)) (lo hi : f64) (o0 o : optimiser X).
Hypothesis made : construct E (UMDAd vector lo hi) g = Ok o0.
Hypothesis usedo : used E o0 o.
Let n := Z.to_nat (g_nvars g).
Hypothesis vec_ok : forall v, vector = Some v -> List.length v = n.
Hypothesis init_ok : forall d, g_init_data g = Some d -> bit_arr n d.
Hypothesis prob_lo : prob lo.
Hypothesis prob_hi : prob hi.
Variable t : Z.
Hypothesis chosen : int_times (g_size_gen g) (g_alpha g) = Ok t.
Hypothesis chosen_few : (0 <= t <= 2 ^ 53)%Z.
Variable f : row -> res NdArray.num.
Let cost : row -> list Z -> res NdArray.num * list Z := fun r w => (f r, w).
Variables (ql qh : R).
Hypothesis chance_lo : chance (fun x => flt x lo = true) ql.
Hypothesis chance_hi : chance (fun x => flt x hi = true) qh.
Variable bs : list bool.
Hypothesis bs_len : List.length bs = n.

Let h := hooks_of E o cost.
Let c := op_cfg o.
Let Q : pmstate X -> Prop := unibin_state n hi lo.
Let L := (Z.to_nat (g_size_gen g) * n)%nat.

Lemma setup : c_size_gen c = g_size_gen g /\ c_max_iter c = g_max_iter g /\ c_init_data c = g_init_data g /\ c_w_noise c = PyI 0 /\ c_trunc_len c = t /\
  op_upd o = FromSelection /\ flt lo hi = true /\ c_dead_iter c = g_dead_iter g /\
  op_init o = Some (IUniBin (unibin_init_new (g_nvars g) (match vector with None => repeat (lit 1 (-1)) n | Some v => v end))).
Proof.
  cbn [construct] in made. destruct (umdad_inv _ _ _ _ _ made) as (Hcfg & _ & (m & (M1 & _) & _) & Hini & Hupd & _).
  destruct (used_setup E _ _ usedo) as (E1 & E2 & E3 & _). rewrite <- E1 in Hcfg. rewrite <- E2 in Hini. rewrite <- E3 in Hupd.
  pose proof (eda_init_inv _ _ _ _ _ _ _ _ _ _ _ Hcfg) as (C1 & C2 & C3 & _ & _ & _ & _ & _ & C9 & C10 & C11 & _).
  unfold c. repeat split; try assumption. congruence.
Qed.

Lemma state_ok : Q (op_st o).
Proof. exact (umdad_used E _ _ _ _ _ _ made vec_ok init_ok usedo). Qed.

Lemma data_selection a e p : h_data h a e p = (Ok a, p).
Proof. unfold h. cbn [hooks_of h_data]. destruct setup as (_ & _ & _ & _ & _ & -> & _). reflexivity. Qed.

Lemma learn_bits d p w : Q p -> exists m r m', ps_pm p = Some (MUniBin m) /\ unibin_made n hi lo m /\ unibin_learn d m = (r, m') /\ unibin_made n hi lo m' /\
  h_learn h d p w = (r, (mkPS (Some (MUniBin m')) (ps_archive p), w)).
Proof.
  intros (m & Hm & Hmade). destruct (unibin_learn d m) as [r m'] eqn:El. exists m, r, m'. split; [exact Hm|]. split; [exact Hmade|]. split; [exact El|].
  split; [eapply unibin_made_learn; eassumption|]. unfold h. cbn [hooks_of h_learn]. rewrite Hm. cbn [model_learn]. rewrite El. reflexivity.
Qed.

Definition run_inv (ob : obj) (p : pmstate X) : Prop := bit_arr n (o_gen ob) /\ bit_arr n (o_elite ob) /\ Q p.

Lemma selected_bits ob gen' evals' elite' evel' : bit_arr n (o_gen ob) -> bit_arr n (o_elite ob) ->
  selected c h ob gen' evals' elite' evel' -> bit_arr n gen' /\ bit_arr n elite' /\ (List.length (a_rows gen') <= Z.to_nat t)%nat.
Proof.
  intros B1 B2 H. destruct H. destruct (rows_in_concat DInt n (bit_row n) _ _ B1 B2) as (x & Ex & Bx). assert (x = sel_gen) by congruence. subst x.
  split; [exact (rows_in_take _ _ _ _ _ _ Bx sel_train)|]. split; [exact (rows_in_take _ _ _ _ _ _ Bx sel_elite)|].
  destruct (Select.take_rows_ok _ _ _ sel_train) as (_ & _ & G). apply Select.gather_length in G.
  destruct setup as (_ & _ & _ & _ & Ht & _). rewrite Ht, slice_to_nonneg, firstn_length in G by lia. lia.
Qed.

Lemma sampled_bits p w a w' : Q p -> (exists m, ps_pm p = Some (MUniBin m) /\ List.length (ub_pm m) = n) -> h_sample h p w = (Ok a, w') -> bit_arr n a.
Proof.
  intros (m & Hm & (Q1 & Q2 & Q3 & Q4)) (m2 & Hm2 & Hlen) Hs. assert (m2 = m) by congruence. subst m2.
  unfold h in Hs. cbn [hooks_of h_sample] in Hs. rewrite Hm in Hs. cbn [model_sample] in Hs.
  apply unibin_sample_spec in Hs as (_ & S1 & S2 & S3 & S4 & _). rewrite Q2, Hlen, bres_same in S3.
  assert (Hw : a_nc a = n) by congruence. rewrite Hw in S4. repeat split; assumption.
Qed.

Lemma learned_length d m m' : bit_arr n d -> unibin_made n hi lo m -> unibin_learn d m = (Ok tt, m') ->
  a_rows d <> [] /\ List.length (ub_pm m') = n /\ (List.length (a_rows d) <= Z.to_nat t -> Forall (between ql qh) (ub_pm m'))%nat.
Proof.
  intros (B1 & B2 & B3) Hm Hl. assert (Hne : a_rows d <> []).
  { intros E0. rewrite (unibin_empty d m E0) in Hl. congruence. }
  split; [exact Hne|]. destruct (unibin_bits_made n hi lo m d Hm B2 B3 Hne) as (m1 & L1 & Hlp & Hp). assert (m1 = m') by congruence. subst m1.
  split; [exact Hlp|]. intros Hfew. apply Forall_forall. intros p Hin. apply In_nth_error in Hin as [j Hj].
  assert (Hjn : (j < n)%nat) by (rewrite <- Hlp; apply nth_error_Some; congruence). destruct (Hp j Hjn) as (p' & Hp' & Hcl). assert (p' = p) by congruence. subst p'.
  assert (Hnr : (0 < List.length (a_rows d))%nat) by (destruct (a_rows d); [congruence|cbn; lia]).
  destruct (freq_near (ones_in j (a_rows d)) (List.length (a_rows d)) Hnr (ones_in_le _ _) ltac:(lia)) as (Hpq & _). cbv zeta in Hpq.
  exact (clamped_between lo hi _ p ql qh prob_lo prob_hi (proj1 Hm) Hpq Hcl chance_lo chance_hi).
Qed.

Lemma inv_keeps ftol (s s' : st (pmstate X) (list Z)) ba : run_inv (s_obj s) (s_pm s) -> iteration c h ftol NoiseZero s = (Ok ba, s') -> run_inv (s_obj s') (s_pm s').
Proof.
  intros (B1 & B2 & HQ) H. destruct ba as [b acc]. apply iteration_inv in H. destruct H. subst s'. cbn [s_obj s_pm o_gen o_elite].
  destruct (selected_bits _ _ _ _ _ B1 B2 if_sel) as (S1 & S2 & _). rewrite (iadd_zero_bits n _ S1) in if_iadd. assert (if_noisy = if_gen') by congruence. subst if_noisy.
  rewrite data_selection in if_hdata. assert (if_data = if_gen' /\ if_p1 = s_pm s) as [-> ->] by (split; congruence).
  destruct (learn_bits if_gen' (s_pm s) (s_w s) HQ) as (m & r & m' & Hm & Hmade & Hl & Hmade' & He). rewrite He in if_learn.
  assert (Er : r = Ok tt) by congruence. assert (Ep : if_p2 = mkPS (Some (MUniBin m')) (ps_archive (s_pm s))) by congruence. subst r if_p2.
  destruct (learned_length _ _ _ S1 Hmade Hl) as (_ & Hlen & _). assert (HQ' : Q (mkPS (Some (MUniBin m')) (ps_archive (s_pm s)))) by (exists m'; split; [reflexivity|exact Hmade']).
  split; [|split; [exact S2|exact HQ']]. eapply sampled_bits; [exact HQ'| |exact if_sample]. exists m'. split; [reflexivity|exact Hlen].
Qed.

Definition miss_all : R := (1 - row_chance ql qh bs) ^ Z.to_nat (g_size_gen g).

Lemma chances : 0 <= ql <= qh /\ qh <= 1.
Proof. destruct setup as (_ & _ & _ & _ & _ & _ & Hlt & _). exact (bounds_chances lo hi ql qh prob_lo prob_hi Hlt chance_lo chance_hi). Qed.
Lemma miss_unit : 0 <= miss_all <= 1.
Proof.
  destruct chances as [H1 H2]. destruct (row_chance_unit ql qh bs H1 H2) as [C1 C2]. unfold miss_all. split; [apply pow_le; lra|].
  pose proof (pow_incr (1 - row_chance ql qh bs) 1 (Z.to_nat (g_size_gen g)) ltac:(lra)) as P. rewrite pow1 in P. exact P.
Qed.

Lemma inv_rare (s s1 : st (pmstate X) (list Z)) : run_inv (s_obj s) (s_pm s) -> select_and_learn c h NoiseZero s = (Ok tt, s1) ->
  forall fs : list Z -> res arr, (forall seg w, List.length seg = L -> h_sample h (s_pm s1) (seg ++ w) = (fs seg, w)) ->
  mean draws L (fun seg => ind (match fs seg with Ok a => negb (contains bs a) | Raise _ => false end)) <= miss_all.
Proof.
  intros (B1 & B2 & HQ) H fs Hfs. destruct setup as (Csz & _).
  destruct (Z.ltb_spec (g_size_gen g) 0) as [Hneg|Hpos].
  { unfold miss_all. replace (Z.to_nat (g_size_gen g)) with O by lia. cbn [pow]. rewrite <- (mean_const draws draws_nonempty L 1) at 1.
    apply (mean_le draws draws_nonempty). intros. apply ind_unit. }
  unfold select_and_learn in H. apply mbind_ok in H as ([] & s2 & H1 & H). apply truncation_inv in H1 as (gen' & evals' & elite' & evel' & Hsel & ->).
  destruct (selected_bits _ _ _ _ _ B1 B2 Hsel) as (S1 & S2 & Hfew).
  apply mbind_ok in H as (ob & s3 & H2 & H). apply get_obj_ok in H2 as [-> ->]. apply mbind_ok in H as (gn & s3 & H2 & H). apply mlift_ok in H2 as [H2 ->].
  cbn [s_obj o_gen] in H2. rewrite (iadd_zero_bits n _ S1) in H2. assert (gn = gen') by congruence. subst gn.
  apply mbind_ok in H as ([] & s3 & H3 & H). apply set_gen_ok in H3. subst s3. apply update_pm_ok in H as (data & p1 & p2 & w2 & Hd & Hl & ->).
  cbn [s_obj s_pm s_w o_gen o_elite] in *. rewrite data_selection in Hd. assert (data = gen' /\ p1 = s_pm s) as [-> ->] by (split; congruence).
  destruct (learn_bits gen' (s_pm s) (s_w s) HQ) as (m & r & m' & Hm & Hmade & Hl' & Hmade' & He). rewrite He in Hl.
  assert (Er : r = Ok tt) by congruence. assert (Ep : p2 = mkPS (Some (MUniBin m')) (ps_archive (s_pm s))) by congruence. subst r p2.
  destruct (learned_length _ _ _ S1 Hmade Hl') as (_ & Hlen & Hbet). specialize (Hbet Hfew).
  assert (Hsam : forall seg w, List.length seg = L -> unibin_sample (e_rng E) m' (g_size_gen g) (seg ++ w) = (fs seg, w)).
  { intros seg w Hls. rewrite <- (Hfs seg w Hls). unfold h. cbn [hooks_of h_sample ps_pm model_sample]. fold c. rewrite Csz. reflexivity. }
  pose proof (unibin_drawn (e_rng E) m' (g_size_gen g) n fs tape Hpos (proj1 (proj2 Hmade')) Hlen Hsam) as Hrows.
  destruct chances as [K1 K2]. unfold miss_all. eapply Rle_trans; [|apply (missed_chance ql qh bs (ub_pm m') K1 K2 ltac:(congruence) Hbet)].
  rewrite bs_len. fold L. apply (mean_le draws draws_nonempty). intros seg [Ls _]. rewrite (Hrows seg Ls). unfold contains. cbn [a_rows].
  rewrite <- bs_len. rewrite drawn_missed; [rewrite negb_involutive; lra|congruence|]. rewrite Ls, bs_len. unfold L. lia.
Qed.

Definition first_draws : nat := match g_init_data g with None => L | Some _ => O end.
(** All the numbers a run can draw. *)
Definition all_draws : nat := (first_draws + L * Z.to_nat (g_max_iter g - 1))%nat.

(** Whatever numbers were drawn for the first generation. *)
Lemma run_rare_after a ftol out k seg0 : sequence draws first_draws seg0 ->
  let T := Z.to_nat (g_max_iter g - 1) in (k <= T)%nat ->
  forall test : list Z -> bool,
  (forall v, sequence draws (L * T) v -> test v = true ->
     let G := gens (s_tr (snd (run_in E a o cost ftol out (seg0 ++ v)))) in (S k <= List.length G)%nat /\ forallb (fun gv => negb (contains bs (fst gv))) (firstn k (tl G)) = true) ->
  mean draws (L * T) (fun v => ind (test v)) <= (1 - row_chance ql qh bs) ^ (Z.to_nat (g_size_gen g) * k).
Proof.
  intros Sseg T HkT test Ht. destruct setup as (C1 & C2 & C3 & C4 & C5 & C6 & C7 & C8 & C9). rewrite pow_mult. fold miss_all.
  assert (ET : Z.to_nat (c_max_iter c - 1) = T) by (unfold T; rewrite C2; reflexivity).
  rewrite <- ET in HkT, Ht |- *.
  apply (minimize_rare_after c h Q) with (L := L) (bad := fun a => negb (contains bs a)) (I := run_inv) (ftol := ftol) (wn := NoiseZero) (L0 := first_draws) (out := out) (seg := seg0)
    (s := mkSt a (op_st o) (@nil Z) []).
  - intros r. exists (f r). intros w. reflexivity.
  - intros ga e p Hq. rewrite data_selection. exact Hq.
  - intros d p Hq. destruct (learn_bits d p [] Hq) as (m & r & m' & Hm & Hmade & Hl & Hmade' & He). exists r, (mkPS (Some (MUniBin m')) (ps_archive p)).
    split; [exists m'; split; [reflexivity|exact Hmade']|]. intros w. unfold h. cbn [hooks_of h_learn]. rewrite Hm. cbn [model_learn]. rewrite Hl. reflexivity.
  - intros p (m & Hm & (_ & Hn & _)). destruct (unibin_tape (e_rng E) m (g_size_gen g) n tape Hn) as (fs & Hfs). exists fs. intros seg w Hls.
    unfold h. cbn [hooks_of h_sample]. rewrite Hm. cbn [model_sample]. fold c. rewrite C1. apply Hfs. exact Hls.
  - exact miss_unit.
  - intros ob p (_ & _ & Hq). exact Hq.
  - intros s s' ba. apply inv_keeps.
  - intros s s1. apply inv_rare.
  - rewrite C3. unfold first_draws. destruct (g_init_data g) as [d|]; [reflexivity|].
    unfold h. cbn [hooks_of h_init]. rewrite C9. fold c. rewrite C1. cbn [initr_sample].
    destruct (unibin_tape (e_rng E) (bi_pm (unibin_init_new (g_nvars g) (match vector with None => repeat (lit 1 (-1)) n | Some v => v end))) (g_size_gen g) n tape eq_refl) as (fs & Hfs).
    exists fs. intros seg w Hls. apply Hfs. exact Hls.
  - intros s. unfold draw_noise. rewrite C4. reflexivity.
  - intros s s1 b Hq Hf. apply first_generation_inv in Hf. destruct Hf. subst s1. cbn [s_obj s_pm o_gen o_elite].
    assert (B : bit_arr n ff_g).
    { rewrite C3 in ff_init. destruct (g_init_data g) as [d|] eqn:Ed; [destruct ff_init as [-> _]; apply init_ok; reflexivity|].
      unfold h in ff_init. cbn [hooks_of h_init] in ff_init. rewrite C9 in ff_init. cbn [initr_sample] in ff_init.
      apply unibin_init_width in ff_init; [apply ff_init|]. right. destruct vector as [v|]; [apply vec_ok; reflexivity|apply repeat_length]. }
    split; [exact B|]. split; [exact (rows_in_head _ _ _ _ _ _ B ff_rows_eq)|exact Hq].
  - exact state_ok.
  - reflexivity.
  - exact Sseg.
  - exact HkT.
  - exact Ht.
Qed.

Lemma run_rare a ftol out k :
  let T := Z.to_nat (g_max_iter g - 1) in (k <= T)%nat ->
  forall test : list Z -> bool,
  (forall v, sequence draws all_draws v -> test v = true ->
     let G := gens (s_tr (snd (run_in E a o cost ftol out v))) in (S k <= List.length G)%nat /\ forallb (fun gv => negb (contains bs (fst gv))) (firstn k (tl G)) = true) ->
  likelihood all_draws test <= (1 - row_chance ql qh bs) ^ (Z.to_nat (g_size_gen g) * k).
Proof.
  intros T HkT test Ht. unfold likelihood, all_draws. fold T. rewrite mean_app, <- (mean_const draws draws_nonempty first_draws ((1 - row_chance ql qh bs) ^ _)).
  apply (mean_le draws draws_nonempty). intros seg Sseg. apply (run_rare_after a ftol out k seg Sseg HkT (fun t => test (seg ++ t))).
  intros v Sv Hv. apply (Ht (seg ++ v)); [apply sequence_app; assumption|exact Hv].
Qed.
End Run.
