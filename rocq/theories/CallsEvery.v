(** Every call of the cost function, also those of a generation whose evaluation was cut short. *)
From Coq Require Import String List ZArith Bool Lia Reals Lra Permutation.
From Flocq Require Import Core IEEE754.BinarySingleNaN.
From Verif Require Import PyBase B64 B64More NdArray Eda EdaInv Spec TopK LoopObs LoopThms Select SelectAny LoopTrain LoopDrawn LoopNoise LoopFail FailThms Rand RandThms
  Models ModelThms Sign CatThms Trunc Inits InitThms Stock StockInv StockGauss StockAll StockPrior StockFinal DrawnStock FloatSum FloatMean FloatRun FloatStart FloatRunEvery.
Import ListNotations.
Open Scope nat_scope.

Section Loop.
Context {S W : Type}.
Variable c : cfg.
Variable h : hooks S W.

Local Notation st := (st S W).

(** A row handed to the cost function belongs to the initial generation, or to a sample of the
    model trained on the data sets recorded so far. *)
Definition from_model (p0 : S) (ds : list arr) (g : arr) : Prop :=
  (ds = [] /\ initial c h g) \/
  (ds <> [] /\ exists p w w', trained h p0 ds p /\ h_sample h p w = (Ok g, w')).

Definition asked_ok (p0 : S) (tr : list ev) (e : ev) : Prop :=
  match e with
  | EvCall x _ => exists g, In x (a_rows g) /\ from_model p0 (learns tr) g
  | _ => True
  end.

Lemma on_rows_quiet rs l : Forall (on_rows rs) l -> learns l = [].
Proof. induction 1 as [|e l (x & v & -> & _) _ IH]; [reflexivity|exact IH]. Qed.

Lemma calls_on_rows rs : forall vs, Forall (on_rows rs) (calls_of rs vs).
Proof.
  induction rs as [|r rs IH]; intros [|v vs]; cbn; try constructor.
  - exists r, v. split; [reflexivity|left; reflexivity].
  - eapply on_rows_incl; [|apply IH]. apply incl_tl, incl_refl.
Qed.

Lemma asked_rows p0 tr g l : each_event (asked_ok p0) tr -> Forall (on_rows (a_rows g)) l -> from_model p0 (learns tr) g ->
  each_event (asked_ok p0) (tr ++ l).
Proof.
  intros H Hl Hg. induction l as [|e l IH] using rev_ind; [rewrite app_nil_r; exact H|].
  apply Forall_app in Hl as [Hl He]. rewrite app_assoc. apply each_event_snoc; [apply IH, Hl|].
  inversion He as [|? ? (x & v & -> & Hx) _]; subst. exists g. split; [exact Hx|].
  rewrite learns_app, (on_rows_quiet _ _ Hl), app_nil_r. exact Hg.
Qed.

Lemma asked_gen p0 tr g rets vals : each_event (asked_ok p0) tr -> from_model p0 (learns tr) g ->
  each_event (asked_ok p0) (tr ++ calls_of (a_rows g) rets ++ [EvGen g rets vals]).
Proof.
  intros H Hg. rewrite app_assoc. apply each_event_snoc; [|exact I]. eapply asked_rows; [exact H|apply calls_on_rows|exact Hg].
Qed.

Lemma asked_every ftol out (s : st) r tr : executes c h ftol out s r tr -> each_event (asked_ok (s_pm s)) tr.
Proof.
  intros (Htr & s' & H & <-). set (p0 := s_pm s).
  assert (C0 : each_event (asked_ok p0) (s_tr s)) by (rewrite Htr; apply each_event_nil).
  assert (Hi : forall g, initial c h g -> from_model p0 (learns (s_tr s)) g) by (intros g Hg; left; rewrite Htr; split; [reflexivity|exact Hg]).
  assert (C1 : forall b s1, first_facts c h s s1 b -> each_event (asked_ok p0) (s_tr s1)).
  { intros b s1 Hf. destruct Hf. subst s1. cbn [s_tr]. apply asked_gen; [exact C0|]. apply Hi. unfold initial. destruct (c_init_data c); [apply ff_init|]. eauto. }
  assert (Hnew : forall (s0 : st) t el data gen elite p1 p2 w2 g w3,
    drawn_inv c h p0 s0 -> h_data h gen elite (s_pm s0) = (Ok data, p1) -> h_learn h data p1 (s_w s0) = (Ok tt, (p2, w2)) ->
    h_sample h p2 w2 = (Ok g, w3) -> from_model p0 (learns (s_tr s0 ++ [EvSelect t el; EvLearn data])) g).
  { intros s0 t el data gen elite p1 p2 w2 g w3 (A & _) Hd Hl Hs. right. rewrite learns_app. cbn [learns flat_map app].
    split; [destruct (learns (s_tr s0)); discriminate|]. exists p2, w2, w3. split; [econstructor; eassumption|exact Hs]. }
  assert (Hpre : forall (s0 : st) t el data, each_event (asked_ok p0) (s_tr s0) -> each_event (asked_ok p0) (s_tr s0 ++ [EvSelect t el; EvLearn data])).
  { intros s0 t el data C. apply each_event_extend; [exact C|]. intros t0 e [<-|[<-|[]]]; exact I. }
  destruct (every_run_rule c h ftol out (fun _ s1 => drawn_inv c h p0 s1 /\ each_event (asked_ok p0) (s_tr s1)) (each_event (asked_ok p0)) (fun _ => each_event (asked_ok p0)) s s' r)
    as [X|(wn & _ & X)]; try exact X; try exact H.
  - intros wn s0 s1 [HI HJ] Hp. split; [eapply drawn_printed; eassumption|]. eapply printed_after_each; [|exact Hp|exact HJ]. intros; exact I.
  - intros b s1 w1 wn Hf _. split; [eapply drawn_first; eassumption|]. exact (C1 b s1 Hf).
  - exact C1.
  - intros s1 [E|g l Hg Hl E|g rets vals Hg Hlen Hst E]; rewrite E.
    + exact C0.
    + eapply asked_rows; [exact C0|exact Hl|apply Hi, Hg].
    + apply asked_gen; [exact C0|apply Hi, Hg].
  - intros wn s0 b acc s1 _ [HI HJ] Hf. split; [eapply drawn_iter; eassumption|]. destruct Hf. subst s1. cbn [s_tr].
    rewrite app_assoc. apply asked_gen; [apply Hpre, HJ|]. eapply Hnew; eassumption.
  - intros wn s0 [_ X]. exact X.
  - intros wn s0 s1 _ [HI C] Hf.
    destruct Hf as [E|gen' evals' elite' evel' _ E|gen' evals' elite' evel' noisy data p1 _ _ _ E
                   |gen' evals' elite' evel' noisy data p1 p2 w2 g w3 l _ _ Hd Hln Hs Hl E
                   |gen' evals' elite' evel' noisy data p1 p2 w2 g w3 rets vals _ _ Hd Hln Hs Hlen Hst E]; rewrite E.
    + exact C.
    + apply each_event_snoc; [exact C|exact I].
    + apply Hpre, C.
    + rewrite app_assoc. eapply asked_rows; [apply Hpre, C|exact Hl|]. eapply Hnew; eassumption.
    + rewrite app_assoc. apply asked_gen; [apply Hpre, C|]. eapply Hnew; eassumption.
Qed.

End Loop.

(** ** The stock algorithms *)
Section Stock.
Context {X W : Type}.
Variable E : env X W.

Lemma gauss_rows (g : rng W) pm size w a w' : gauss_sample g pm size w = (Ok a, w') -> Forall (float_row (List.length pm)) (a_rows a).
Proof. unfold gauss_sample. intros H. apply np_normal_ok in H as [M _]. apply matrix_rows in M as [(_ & _ & F) _]. exact F. Qed.

Lemma last_of {A} (l : list A) : l <> [] -> exists l' x, l = l' ++ [x] /\ List.length l = Datatypes.S (List.length l').
Proof.
  destruct l as [|y l] using rev_ind; [congruence|]. intros _. exists l, y. split; [reflexivity|]. rewrite app_length. cbn. lia.
Qed.

(** The model behind a generation drawn after training. *)
Lemma pending_drawn (o0 o : optimiser X) m0 cost ds d g p w w' :
  used E o0 o -> ps_pm (op_st o0) = Some m0 -> trained (hooks_of E o cost) (op_st o) (ds ++ [d]) p ->
  h_sample (hooks_of E o cost) p w = (Ok g, w') ->
  exists m m' w1 w2 w3 w4, alike m0 m /\
    model_learn E d m w1 = (Ok tt, (m', w2)) /\ model_sample E m' (c_size_gen (op_cfg o)) w3 = (Ok g, w4).
Proof.
  intros U H0 Ht Hs. pose proof (used_alike E _ _ U) as A. rewrite H0 in A. cbn [alike_opt] in A.
  destruct (ps_pm (op_st o)) as [m1|] eqn:E1; [|contradiction].
  destruct (trained_last E _ _ _ _ _ _ Ht E1 _ _ eq_refl) as (m & m' & w1 & w2 & A' & Hl & Hm').
  exists m, m', w1, w2, w, w'. split; [eapply alike_trans; eassumption|]. split; [exact Hl|].
  cbn [hooks_of h_sample] in Hs. rewrite Hm' in Hs. exact Hs.
Qed.

Lemma umdac_pending g lo hi vector lf wn (o0 o : optimiser X) cost ds d gen p w w' :
  construct E (UMDAc lo hi vector lf wn) g = Ok o0 -> used E o0 o -> trained (hooks_of E o cost) (op_st o) (ds ++ [d]) p ->
  h_sample (hooks_of E o cost) p w = (Ok gen, w') ->
  umdac_next E lf (Z.to_nat (g_size_gen g)) (Z.to_nat (g_nvars g)) d gen /\ Forall (float_row (Z.to_nat (g_nvars g))) (a_rows gen).
Proof.
  intros Hc U Ht Hsm. cbn [construct] in Hc. apply umdac_inv in Hc as (Hcfg & _ & Hpm & _).
  apply eda_init_inv in Hcfg as (Hsz & _). destruct (used_setup E _ _ U) as (Ecfg & _).
  destruct (pending_drawn _ _ _ _ _ _ _ _ _ _ U Hpm Ht Hsm) as (m & m' & w1 & w2 & w3 & w4 & A & Hl & Hs).
  destruct m as [lf' pm| | | | |]; try contradiction. destruct A as [<- Hlen].
  unfold gauss_new in Hlen. rewrite repeat_length in Hlen. cbn [model_learn] in Hl.
  destruct (unigauss_learn (b64_ops (e_sum E)) lf (num_col d) pm) as [r' pm'] eqn:L.
  assert (Em : m' = MUniGauss lf pm') by congruence. assert (Er : r' = Ok tt) by congruence. subst m' r'.
  apply learn_from_ok in L as [Hl' L]. cbn [model_sample] in Hs. pose proof (gauss_rows _ _ _ _ _ _ Hs) as HF. apply gauss_entries in Hs as (S1 & S2 & S3).
  rewrite Ecfg, Hsz in *. rewrite Hl', <- Hlen in *. split; [|exact HF].
  split; [exact S1|]. split; [exact S2|]. exists w3. intros i j Hi Hj. destruct (L j Hj) as (q & Hq & Hu). cbn [Nat.add] in Hu.
  unfold unigauss_upd in Hu. destruct (num_col d j) as [x|e]; cbn [rmap] in Hu; [|discriminate].
  exists x. split; [reflexivity|]. rewrite (S3 i j q Hi Hq).
  assert (Eq : q = (mean (b64_ops (e_sum E)) x, raise_to (b64_ops (e_sum E)) lf (std (b64_ops (e_sum E)) x))) by congruence.
  subst q. reflexivity.
Qed.

Lemma pbil_pending g lo hi vector lf wn (o0 o : optimiser X) cost ds d gen p w w' :
  construct E (PBIL lo hi vector lf wn) g = Ok o0 -> used E o0 o -> trained (hooks_of E o cost) (op_st o) (ds ++ [d]) p ->
  h_sample (hooks_of E o cost) p w = (Ok gen, w') ->
  pbil_next E lf (num_to_f (g_alpha g)) (Z.to_nat (g_size_gen g)) (Z.to_nat (g_nvars g)) d gen /\ Forall (float_row (Z.to_nat (g_nvars g))) (a_rows gen).
Proof.
  intros Hc U Ht Hsm. cbn [construct] in Hc. apply pbil_inv in Hc as (Hcfg & _ & Hpm & _).
  apply eda_init_inv in Hcfg as (Hsz & _). destruct (used_setup E _ _ U) as (Ecfg & _).
  destruct (pending_drawn _ _ _ _ _ _ _ _ _ _ U Hpm Ht Hsm) as (m & m' & w1 & w2 & w3 & w4 & A & Hl & Hs).
  destruct m as [|lf' al pm| | | |]; try contradiction. destruct A as (<- & <- & Hlen).
  unfold gauss_new in Hlen. rewrite repeat_length in Hlen. cbn [model_learn] in Hl.
  destruct (adapt_learn (b64_ops (e_sum E)) lf (num_to_f (g_alpha g)) (num_col d) pm) as [r' pm'] eqn:L.
  assert (Em : m' = MAdapt lf (num_to_f (g_alpha g)) pm') by congruence. assert (Er : r' = Ok tt) by congruence. subst m' r'.
  apply learn_from_ok in L as [Hl' L]. cbn [model_sample] in Hs. pose proof (gauss_rows _ _ _ _ _ _ Hs) as HF. apply gauss_entries in Hs as (S1 & S2 & S3).
  rewrite Ecfg, Hsz in *. rewrite Hl', <- Hlen in *. split; [|exact HF].
  split; [exact S1|]. split; [exact S2|]. exists w3. intros i j Hi Hj. destruct (L j Hj) as (q & Hq & Hu). cbn [Nat.add] in Hu.
  unfold adapt_upd in Hu. destruct (num_col d j) as [x|e]; cbn [rbind] in Hu; [|discriminate].
  destruct x as [|b1 [|b2 x]]; try discriminate. exists (b1 :: b2 :: x), b1, b2. split; [reflexivity|]. split; [reflexivity|]. split; [reflexivity|].
  rewrite (S3 i j q Hi Hq). match type of Hu with Ok ?y = _ => assert (Eq : q = y) by congruence end. subst q. reflexivity.
Qed.

(** The first generation, evaluated or not, lies within the bounds. *)
Lemma initial_within A g lo hi (o0 o : optimiser X) cost :
  construct E A g = Ok o0 -> used E o0 o -> start_bounds A = Some (lo, hi) -> unif_ok (e_rng E) ->
  (1 <= g_nvars g)%Z -> g_init_data g = None -> bounds_ok (Z.to_nat (g_nvars g)) lo hi ->
  forall g0, initial (op_cfg o) (hooks_of E o cost) g0 -> Forall (StockAll.within (Z.to_nat (g_nvars g)) lo hi) (a_rows g0).
Proof.
  intros H U Hb Hun Hn Hd (B1 & B2 & B3) g0 Hs. pose proof (construct_built E _ _ _ H) as B. destruct B as [bt_cfg0 _ _ bt_init0 _].
  destruct (used_setup E _ _ U) as (E1 & E2 & _). destruct (bt_init0 _ _ Hb) as (u & Hu & Hi).
  unfold base_of in bt_cfg0. apply eda_init_inv in bt_cfg0. destruct bt_cfg0 as (C1 & _ & _ & C4 & _ & _ & _ & _ & C9 & _).
  unfold initial in Hs. rewrite E1, C9, Hd in Hs. destruct Hs as (w0 & w0' & Hs).
  cbn [hooks_of h_init] in Hs. rewrite E2, Hi, E1, C1 in Hs. cbn [initr_sample] in Hs.
  assert (Hsz : (0 <= g_size_gen g)%Z).
  { destruct (Z.leb_spec 0 (g_size_gen g)) as [Hz|Hz]; [exact Hz|exfalso]. unfold uniform_sample in Hs.
    destruct (ui_n u <? 0)%Z; [discriminate|]. unfold np_uniform in Hs. destruct (Z.ltb_spec (g_size_gen g) 0) as [_|?]; [|lia].
    destruct (ui_lo u), (ui_hi u); try discriminate; repeat (match type of Hs with (if ?b then _ else _) = _ => destruct b; try discriminate end). }
  destruct (uniform_sample_spec (e_rng E) (Z.to_nat (g_nvars g)) lo hi u (g_size_gen g) w0) as (a0 & w1 & Ha & (M1 & M2 & M3 & M4) & HB); try assumption; try lia.
  { rewrite Z2Nat.id by lia. exact Hu. }
  rewrite Ha in Hs. assert (g0 = a0) by congruence. subst g0. apply Forall_forall. intros x Hx.
  split; [rewrite Forall_forall in M4; apply M4, Hx|]. intros j Hj. apply In_nth_error in Hx as [i Hi0].
  assert (Hil : (i < Z.to_nat (g_size_gen g))%nat) by (rewrite <- M3; unfold a_len; apply nth_error_Some; congruence).
  specialize (HB i j Hil Hj). replace (nth i (a_rows a0) []) with x in HB by (symmetry; apply nth_error_nth; exact Hi0). exact HB.
Qed.

Open Scope R_scope.

Lemma learns_nth (tr tr1 tr2 : list ev) ds d : tr = tr1 ++ tr2 -> learns tr1 = ds ++ [d] -> nth_error (learns tr) (List.length ds) = Some d.
Proof.
  intros -> El. rewrite learns_app, El, <- app_assoc. rewrite nth_error_app2 by apply Nat.le_refl. rewrite Nat.sub_diag. reflexivity.
Qed.

Definition tame_row (B : R) (x : row) : Prop := Forall (fun c => exists v, c = CF v /\ tame B v) x.

Lemma cells_row B g x : cells_in B g -> In x (a_rows g) -> tame_row B x.
Proof. unfold cells_in. rewrite Forall_forall. intros H Hx. exact (H x Hx). Qed.

Lemma umdac_calls g lo hi lf wn (o0 o : optimiser X) cost a ftol out w r s t e B0 Zb :
  construct E (UMDAc lo hi None lf wn) g = Ok o0 -> used E o0 o -> run_in E a o cost ftol out w = (r, s) ->
  (forall l, added l (e_sum E l)) -> sum_ok (e_sum E) -> argsort_ok (e_argsort E) ->
  unif_ok (e_rng E) -> gauss_within Zb (e_rng E) -> 1 <= Zb -> bpow radix2 (-500) <= B0 ->
  int_times (g_size_gen g) (g_alpha g) = Ok t -> (1 <= t <= 2 ^ 40)%Z ->
  int_times (g_size_gen g) (g_elite_factor g) = Ok e -> (0 <= e)%Z ->
  isfin lf = true -> Rabs (B2R lf) <= B0 -> noise_small wn Zb B0 ->
  (1 <= g_nvars g)%Z -> g_init_data g = None -> bounds_ok (Z.to_nat (g_nvars g)) lo hi -> bounds_in (Z.to_nat (g_nvars g)) B0 lo hi ->
  forall tr1 x v tr2, s_tr s = tr1 ++ EvCall x v :: tr2 ->
  let B := B0 * (3 * (1 + Zb)) ^ List.length (learns tr1) in
  B <= bpow radix2 400 -> tame_row B x.
Proof.
  intros Hc U Hr Had Hso Has Hu Hz HZ HB0 Ht Ht1 He He0 Fl Hl Hno Hn Hi Hb HB tr1 x v tr2 Etr B Hfar.
  assert (C : executes (op_cfg o) (hooks_of E o cost) ftol out (mkSt a (op_st o) w []) r (s_tr s)).
  { split; [reflexivity|]. exists s. split; [exact Hr|reflexivity]. }
  destruct (asked_every _ _ _ _ _ _ _ C _ _ _ Etr) as (gen & Hx & [[Hnil Hini]|[Hne (p & w1 & w2 & Htd & Hsm)]]).
  - unfold B. rewrite Hnil. cbn [List.length]. rewrite pow_O, Rmult_1_r. refine (cells_row _ _ _ _ Hx).
    eapply within_cells; [exact Hb|exact HB|]. eapply initial_within; try eassumption. reflexivity.
  - destruct (last_of _ Hne) as (ds & d & El & Hlen). cbn [s_pm] in Htd. rewrite El in Htd.
    destruct (umdac_pending _ _ _ _ _ _ _ _ _ _ _ _ _ _ _ Hc U Htd Hsm) as [Hnx Hfr].
    pose proof (umdac_finite_bounds_every E g lo hi lf wn o0 o cost a ftol out w r s t e B0 Zb Hc U Hr Had Hso Has Hu Hz HZ HB0 Ht Ht1 He He0 Fl Hl Hno Hn Hi Hb HB) as Hgens.
    assert (Hdat : data_ok (Z.to_nat (g_nvars g)) 0 (g_init_data g)) by (intros d0 Hd0; congruence).
    cbn [construct] in Hc.
    pose proof (umdac_pbil_shape E _ _ _ _ _ _ _ _ _ _ _ _ _ _ _ (or_introl Hc) U Hso Hdat Hr) as (Hshape & _).
    apply umdac_inv in Hc as (Hcfg & _ & _ & _ & Hupd & _). destruct (used_setup E _ _ U) as (E1 & _ & E3 & _).
    pose proof (eda_init_inv _ _ _ _ _ _ _ _ _ _ _ Hcfg) as (_ & _ & _ & C4 & _ & _ & _ & _ & _ & C10 & C11 & C12 & _).
    assert (Et : c_trunc_len (op_cfg o0) = t) by congruence. assert (Ee : c_elite_len (op_cfg o0) = e) by congruence.
    rewrite E1 in C. refine (cells_row _ gen _ _ Hx). unfold B in *. clear B. rewrite Hlen in *.
    refine (tame_next (op_cfg o0) (hooks_of E o cost) (umdac_next E lf (Z.to_nat (g_size_gen g)) (Z.to_nat (g_nvars g)))
      (Z.to_nat (g_nvars g)) B0 (3 * (1 + Zb)) Zb (e_rng E) ftol out _ r (s_tr s) Has _ _ Hz _ _ _ _ HB0 _ C Hshape _ (List.length ds) d gen
      (fun i gi vi _ => Hgens i gi vi) (learns_nth _ _ _ _ _ Etr El) Hnx Hfr Hfar).
    + intros gn el p0. cbn [hooks_of h_data]. rewrite E3, Hupd. reflexivity.
    + intros scale w0. cbn [hooks_of h_normal]. rewrite E1. reflexivity.
    + rewrite C4. reflexivity.
    + rewrite Et. exact Ht1.
    + rewrite Ee. exact He0.
    + apply (noise_small_cfg wn); assumption.
    + lra.
    + clear Hgens Hfr Hnx Hx Hsm Hfar El Htd. intros B d0 gen0 HB1 HBf (N1 & N2 & w3 & N3) Hd Hdl Hdata Hfr. pose proof tall_pos. fold tall in HB0.
      apply (by_cells _ _ _ Hfr). intros i j Hi0 Hj. rewrite N1 in Hi0. destruct (N3 i j Hi0 Hj) as (y & Hy & Hcell). eexists. split; [exact Hcell|].
      destruct (Hdata j y Hj Hy) as [Hw Hxl]. assert (HZB : 0 <= Zb * B) by (apply Rmult_le_pos; lra).
      eapply tame_le; [apply (umdac_cell (e_sum E) Had y lf _ ((2 + / 128) * B) Zb)|].
      * destruct y; [|discriminate]. cbn in Hxl. destruct (a_rows d0); [congruence|discriminate].
      * unfold few. rewrite Hxl. exact Hdl.
      * exact Hw.
      * split; [exact Fl|lra].
      * apply Hz; [exact Hi0|exact Hj].
      * exact HZ.
      * lra.
      * lra.
      * lra.
Qed.

Lemma pbil_calls g lo hi lf wn (o0 o : optimiser X) cost a ftol out w r s e B0 Zb :
  construct E (PBIL lo hi None lf wn) g = Ok o0 -> used E o0 o -> run_in E a o cost ftol out w = (r, s) ->
  (forall l, added l (e_sum E l)) -> sum_ok (e_sum E) -> argsort_ok (e_argsort E) ->
  unif_ok (e_rng E) -> gauss_within Zb (e_rng E) -> 1 <= Zb -> bpow radix2 (-500) <= B0 ->
  (1 <= g_size_gen g <= 2 ^ 40)%Z ->
  int_times (g_size_gen g) (g_elite_factor g) = Ok e -> (0 <= e)%Z ->
  isfin (num_to_f (g_alpha g)) = true -> 0 <= B2R (num_to_f (g_alpha g)) <= 1 ->
  isfin lf = true -> Rabs (B2R lf) <= B0 -> noise_small wn Zb B0 ->
  (1 <= g_nvars g)%Z -> g_init_data g = None -> bounds_ok (Z.to_nat (g_nvars g)) lo hi -> bounds_in (Z.to_nat (g_nvars g)) B0 lo hi ->
  forall tr1 x v tr2, s_tr s = tr1 ++ EvCall x v :: tr2 ->
  let B := B0 * (3 * (3 + Zb)) ^ List.length (learns tr1) in
  B <= bpow radix2 400 -> tame_row B x.
Proof.
  intros Hc U Hr Had Hso Has Hu Hz HZ HB0 Hg1 He He0 Fa Ha Fl Hl Hno Hn Hi Hb HB tr1 x v tr2 Etr B Hfar.
  assert (C : executes (op_cfg o) (hooks_of E o cost) ftol out (mkSt a (op_st o) w []) r (s_tr s)).
  { split; [reflexivity|]. exists s. split; [exact Hr|reflexivity]. }
  destruct (asked_every _ _ _ _ _ _ _ C _ _ _ Etr) as (gen & Hx & [[Hnil Hini]|[Hne (p & w1 & w2 & Htd & Hsm)]]).
  - unfold B. rewrite Hnil. cbn [List.length]. rewrite pow_O, Rmult_1_r. refine (cells_row _ _ _ _ Hx).
    eapply within_cells; [exact Hb|exact HB|]. eapply initial_within; try eassumption. reflexivity.
  - destruct (last_of _ Hne) as (ds & d & El & Hlen). cbn [s_pm] in Htd. rewrite El in Htd.
    destruct (pbil_pending _ _ _ _ _ _ _ _ _ _ _ _ _ _ _ Hc U Htd Hsm) as [Hnx Hfr].
    pose proof (pbil_finite_bounds_every E g lo hi lf wn o0 o cost a ftol out w r s e B0 Zb Hc U Hr Had Hso Has Hu Hz HZ HB0 Hg1 He He0 Fa Ha Fl Hl Hno Hn Hi Hb HB) as Hgens.
    assert (Hdat : data_ok (Z.to_nat (g_nvars g)) 0 (g_init_data g)) by (intros d0 Hd0; congruence).
    cbn [construct] in Hc.
    pose proof (umdac_pbil_shape E _ _ _ _ _ _ _ _ _ _ _ _ _ _ _ (or_intror Hc) U Hso Hdat Hr) as (Hshape & _).
    apply pbil_inv in Hc as (Hcfg & _ & _ & _ & Hupd & _). destruct (used_setup E _ _ U) as (E1 & _ & E3 & _).
    pose proof (eda_init_inv _ _ _ _ _ _ _ _ _ _ _ Hcfg) as (_ & _ & _ & C4 & _ & _ & _ & _ & _ & C10 & C11 & C12 & _).
    assert (Et : c_trunc_len (op_cfg o0) = g_size_gen g).
    { cbn [int_times] in C11. assert (Q : (g_size_gen g * 1)%Z = c_trunc_len (op_cfg o0)) by congruence. lia. }
    assert (Ee : c_elite_len (op_cfg o0) = e) by congruence.
    rewrite E1 in C. refine (cells_row _ gen _ _ Hx). unfold B in *. clear B. rewrite Hlen in *.
    refine (tame_next (op_cfg o0) (hooks_of E o cost) (pbil_next E lf (num_to_f (g_alpha g)) (Z.to_nat (g_size_gen g)) (Z.to_nat (g_nvars g)))
      (Z.to_nat (g_nvars g)) B0 (3 * (3 + Zb)) Zb (e_rng E) ftol out _ r (s_tr s) Has _ _ Hz _ _ _ _ HB0 _ C Hshape _ (List.length ds) d gen
      (fun i gi vi _ => Hgens i gi vi) (learns_nth _ _ _ _ _ Etr El) Hnx Hfr Hfar).
    + intros gn el p0. cbn [hooks_of h_data]. rewrite E3, Hupd. reflexivity.
    + intros scale w0. cbn [hooks_of h_normal]. rewrite E1. reflexivity.
    + rewrite C4. reflexivity.
    + rewrite Et. exact Hg1.
    + rewrite Ee. exact He0.
    + apply (noise_small_cfg wn); assumption.
    + lra.
    + clear Hgens Hfr Hnx Hx Hsm Hfar El Htd. intros B d0 gen0 HB1 HBf (N1 & N2 & w3 & N3) Hd Hdl Hdata Hfr. pose proof tall_pos. fold tall in HB0.
      apply (by_cells _ _ _ Hfr). intros i j Hi0 Hj. rewrite N1 in Hi0. destruct (N3 i j Hi0 Hj) as (y & b1 & b2 & Hy & Hb1 & Hb2 & Hcell).
      eexists. split; [exact Hcell|].
      destruct (Hdata j y Hj Hy) as [Hw Hxl]. assert (HZB : 0 <= Zb * B) by (apply Rmult_le_pos; lra).
      eapply tame_le; [apply (pbil_cell (e_sum E) Had y b1 b2 lf _ _ ((2 + / 128) * B) Zb)|]; try assumption.
      * unfold few. rewrite Hxl. exact Hdl.
      * split; [exact Fl|lra].
      * apply Hz; [exact Hi0|exact Hj].
      * lra.
      * lra.
      * lra.
Qed.

End Stock.
