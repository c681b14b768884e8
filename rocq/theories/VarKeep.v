(** Some of the variables: runs of UMDAc, PBIL and UMDAd whose cost ignores the other variables. *)
From Coq Require Import String List ZArith Bool Lia.
From Verif Require Import PyBase B64 B64More NdArray Eda EdaInv Rand Models Inits Stock Spec LoopObs LoopRel OrderRel LoopMap LoopKeep VarOrder.
Import ListNotations.
Open Scope nat_scope.

(** Of a list with one entry for each of the [n] variables, the entries of the variables
    [sigma]; a list that has another length is left as it is. *)
Definition only {A} (n : nat) (sigma : list nat) (d : A) (l : list A) : list A :=
  if Nat.eqb (List.length l) n then map (fun j => nth j l d) sigma else l.
(** The variables [sigma] of an individual. *)
Definition only_row (n : nat) (sigma : list nat) : row -> row := only n sigma (CF fnan).
Definition only_bound (n : nat) (sigma : list nat) (b : bound) : bound :=
  match b with BList t l => BList t (only n sigma fnan l) | _ => b end.
(** The arguments of the optimiser that has only the variables [sigma]. *)
Definition only_args (sigma : list nat) (a : args) : args :=
  mkArgs (g_size_gen a) (g_max_iter a) (g_dead_iter a) (Z.of_nat (List.length sigma)) (g_alpha a) (g_elite_factor a) (g_disp a)
         (g_parallelize a) (option_map (keep_arr (only_row (Z.to_nat (g_nvars a)) sigma) (List.length sigma)) (g_init_data a)).
(** The generator [g'] gives each of the variables [sigma] the numbers that [g] gives it. *)
Definition draws_of {W} (n : nat) (sigma : list nat) (g g' : rng W) : Prop :=
  let m := List.length sigma in
  forall r w,
    (snd (g_unif g' r m w) = snd (g_unif g r n w) /\
     forall i k, k < m -> fst (g_unif g' r m w) i k = fst (g_unif g r n w) i (nth k sigma 0)) /\
    (snd (g_gauss g' r m w) = snd (g_gauss g r n w) /\
     forall i k, k < m -> fst (g_gauss g' r m w) i k = fst (g_gauss g r n w) i (nth k sigma 0)).

Section Sel.
Variables (n : nat) (sigma : list nat).
Local Notation m := (List.length sigma).
Hypothesis Hs : Forall (fun j => j < n) sigma.
Hypothesis H0 : sigma <> [].

Lemma only_pos : 0 < m /\ 0 < n.
Proof. destruct sigma as [|j s]; [contradiction|]. inversion Hs; subst. cbn. lia. Qed.
Lemma only_in j : In j sigma -> j < n.
Proof. rewrite Forall_forall in Hs. apply Hs. Qed.
Lemma only_lt k : k < m -> nth k sigma 0 < n.
Proof. intros H. apply only_in, nth_In, H. Qed.
Local Notation sel := (VarOrder.sel sigma).
Lemma sel_len {A} (d : A) l : List.length (sel d l) = m.
Proof. apply map_length. Qed.
Lemma sel_nth {A} (d e : A) l k : k < m -> nth k (sel d l) e = nth (nth k sigma 0) l d.
Proof.
  intros H. unfold VarOrder.sel. rewrite (nth_indep _ e (nth 0 l d)) by (rewrite map_length; exact H).
  apply (map_nth (fun j => nth j l d)).
Qed.
Lemma only_sel {A} (d : A) l : List.length l = n -> only n sigma d l = sel d l.
Proof. intros H. unfold only. rewrite H, Nat.eqb_refl. reflexivity. Qed.
Lemma sel_intro {A} (d : A) l l' : List.length l' = m -> (forall k, k < m -> nth k l' d = nth (nth k sigma 0) l d) -> l' = sel d l.
Proof.
  intros HL H. apply (list_ext d); [rewrite sel_len; exact HL|]. intros k Hk. rewrite sel_nth by lia. apply H. lia.
Qed.
Lemma sel_map {A B} (h : A -> B) (d : A) (e : B) l : List.length l = n -> sel e (map h l) = map h (sel d l).
Proof.
  intros H. unfold VarOrder.sel. rewrite map_map. apply map_ext_in. intros j Hj. apply only_in in Hj.
  rewrite (nth_indep _ e (h d)) by (rewrite map_length; lia). apply map_nth.
Qed.
Lemma sel_const {A} (d x : A) : sel d (repeat x n) = repeat x m.
Proof.
  symmetry. apply sel_intro; [apply repeat_length|]. intros k Hk. pose proof (only_lt k Hk) as Hk'.
  rewrite (nth_indep _ d x), (nth_indep _ d x) by (rewrite repeat_length; assumption). rewrite !nth_repeat. reflexivity.
Qed.
Lemma sel_tabulate {A} (d : A) f f' : (forall k, k < m -> f' k = f (nth k sigma 0)) -> tabulate m f' = sel d (tabulate n f).
Proof.
  intros H. apply sel_intro; [apply tabulate_length|]. intros k Hk. rewrite !nth_tabulate by (try exact Hk; apply only_lt, Hk). apply H, Hk.
Qed.
Lemma sel_Forall {A} (P : A -> Prop) d l : List.length l = n -> Forall P l -> Forall P (sel d l).
Proof.
  intros H HP. apply Forall_map, Forall_forall. intros j Hj. rewrite Forall_forall in HP. apply HP, nth_In. rewrite H. apply only_in, Hj.
Qed.
Lemma sel_existsb {A} (p : A -> bool) d l : List.length l = n -> existsb p l = false -> existsb p (sel d l) = false.
Proof.
  intros H HP. destruct (existsb p (sel d l)) eqn:E; [|reflexivity]. apply existsb_exists in E. destruct E as (x & Hx & Px).
  apply in_map_iff in Hx. destruct Hx as (j & <- & Hj). rewrite <- HP. symmetry. apply existsb_exists.
  exists (nth j l d). split; [|exact Px]. apply nth_In. rewrite H. apply only_in, Hj.
Qed.

(* ---------------- rows and arrays ---------------- *)
Definition Ro (r r' : row) : Prop := List.length r = n /\ Forall numeric r /\ r' = sel (CF fnan) r.
Definition wo (x x' : nat) : Prop := x = n /\ x' = m.
Local Notation Ra := (arr_keep Ro wo).

Lemma Ro_cast d r r' : Ro r r' -> Ro (map (cast_cell d) r) (map (cast_cell d) r').
Proof.
  intros (H1 & H2 & ->). split; [rewrite map_length; exact H1|]. split.
  - apply Forall_map. eapply Forall_impl; [|exact H2]. intros c. destruct c, d; cbn; auto.
  - symmetry. apply sel_map, H1.
Qed.
Lemma Ro_fun r r' : Ro r r' -> r' = only_row n sigma r.
Proof. intros (H1 & _ & ->). symmetry. apply only_sel, H1. Qed.
Lemma Ro_map (h : cell -> cell) r r' : (forall c, numeric c -> numeric (h c)) -> Ro r r' -> Ro (map h r) (map h r').
Proof.
  intros Hh (H1 & H2 & ->). split; [rewrite map_length; exact H1|]. split.
  - apply Forall_map. eapply Forall_impl; [|exact H2]. exact Hh.
  - symmetry. apply sel_map, H1.
Qed.
Lemma rows_tabulate k0 (f f' : nat -> nat -> cell) :
  (forall i k, numeric (f i k)) -> (forall i k, k < m -> f' i k = f i (nth k sigma 0)) ->
  Forall2 Ro (tabulate k0 (fun i => tabulate n (f i))) (tabulate k0 (fun i => tabulate m (f' i))).
Proof.
  intros Hn H. unfold tabulate at 1 3. induction (seq 0 k0) as [|i l IH]; cbn [map]; constructor; [|exact IH].
  split; [apply tabulate_length|]. split; [apply Forall_tabulate; intros; apply Hn|]. apply sel_tabulate. intros k Hk. apply H, Hk.
Qed.
Lemma float_arr_only k0 f f' : (forall i k, k < m -> f' i k = f i (nth k sigma 0)) -> Ra (float_arr k0 n f) (float_arr k0 m f').
Proof.
  intros H. split; [reflexivity|]. split; [split; reflexivity|]. cbn [float_arr a_rows].
  apply (rows_tabulate k0 (fun i j => CF (f i j)) (fun i j => CF (f' i j))); [reflexivity|]. intros i k Hk. rewrite H by exact Hk. reflexivity.
Qed.

(* ---------------- the noise ---------------- *)
Definition Rno (x x' : noise) : Prop :=
  match x, x' with
  | NoiseZero, NoiseZero | NoiseStr, NoiseStr => True
  | NoiseMat nr nc d, NoiseMat nr' nc' d' => nr = nr' /\ nc = n /\ nc' = m /\ forall i k, k < m -> d' i k = d i (nth k sigma 0)
  | _, _ => False
  end.
Lemma add_mat_only nr draw draw' : (forall i k, k < m -> draw' i k = draw i (nth k sigma 0)) -> forall l l', Forall2 Ro l l' -> forall i,
  res_rel (Forall2 Ro) (add_mat_rows nr n i draw l) (add_mat_rows nr m i draw' l').
Proof.
  intros Hd l l' H. induction H as [|r r' l l' Hr H IH]; intros i; cbn [add_mat_rows]; [constructor|].
  destruct Hr as (H1 & H2 & ->).
  destruct (add_cells_at draw (bidx nr i) n r H2 0) as (t & E & HL & HF & HK); [lia|].
  destruct (add_cells_at draw' (bidx nr i) m (sel (CF fnan) r) (sel_Forall _ _ _ H1 H2) 0) as (t' & E' & HL' & HF' & HK'); [rewrite sel_len; lia|].
  rewrite E, E'. cbn [rbind]. specialize (IH (S i)).
  destruct (add_mat_rows nr n (S i) draw l), (add_mat_rows nr m (S i) draw' l'); cbn in IH |- *; try contradiction; [|exact IH].
  constructor; [|exact IH]. split; [lia|]. split; [exact HF|]. rewrite sel_len in HL', HK'. apply sel_intro; [exact HL'|].
  intros k Hk. pose proof (only_lt k Hk) as Hk'. rewrite HK', HK by lia. rewrite sel_nth by exact Hk. cbn [plus]. rewrite Hd by exact Hk. reflexivity.
Qed.
Lemma iadd_only a a' x x' : Ra a a' -> Rno x x' -> res_le Ra (iadd a x) (iadd a' x').
Proof.
  intros (H1 & (H2 & H2w) & H3) Hx. assert (HL : a_len a = a_len a') by (unfold a_len; exact (Forall2_length _ _ _ H3)).
  assert (W : forall d (l l' : list row), Forall2 Ro l l' -> Ra (mkArr d (a_nc a) l) (mkArr d (a_nc a') l')).
  { intros d l l' Hl. split; [reflexivity|]. split; [split; [exact H2|exact H2w]|exact Hl]. }
  destruct x as [| |nr nc d], x' as [| |nr' nc' d']; try contradiction; unfold iadd.
  - rewrite <- H1. assert (K : res_rel (Forall2 Ro) (rmapM (rmapM add_zero_cell) (a_rows a)) (rmapM (rmapM add_zero_cell) (a_rows a'))).
    { eapply rmapM_rel; [exact H3|]. intros r r' Hr. pose proof Hr as (L1 & L2 & L3).
      set (z := fun c => match c with CI z => CI z | CF x => CF (fadd x (Z2f 0)) | CS s => CS s end).
      assert (Hz : forall l, Forall numeric l -> rmapM add_zero_cell l = Ok (map z l)).
      { intros l Hl. apply rmapM_all. eapply Forall_impl; [|exact Hl]. intros [| |]; cbn; [reflexivity|reflexivity|discriminate]. }
      rewrite (Hz r L2), (Hz r') by (rewrite L3; apply sel_Forall; assumption). cbn [res_rel]. apply Ro_map; [|exact Hr].
      intros [| |]; cbn; auto. }
    destruct (rmapM (rmapM add_zero_cell) (a_rows a)), (rmapM (rmapM add_zero_cell) (a_rows a')); cbn in K |- *; try contradiction; [apply W, K|exact I].
  - rewrite <- H1. destruct (a_dt a); try exact I.
    assert (K : res_rel (Forall2 Ro) (rmapM (rmapM add_str_cell) (a_rows a)) (rmapM (rmapM add_str_cell) (a_rows a'))).
    { eapply rmapM_rel; [exact H3|]. intros r r' Hr. pose proof Hr as (L1 & L2 & L3).
      pose proof (sel_len (CF fnan) r) as L4. rewrite <- L3 in L4. pose proof only_pos as [P1 P2].
      assert (L5 : Forall numeric r') by (rewrite L3; apply sel_Forall; assumption).
      destruct r as [|c r], r' as [|c' r']; cbn in L1, L4; try lia.
      inversion L2 as [|? ? N1 _]; inversion L5 as [|? ? N2 _]; subst.
      destruct c, c'; try discriminate N1; try discriminate N2; reflexivity. }
    destruct (rmapM (rmapM add_str_cell) (a_rows a)), (rmapM (rmapM add_str_cell) (a_rows a')); cbn in K |- *; try contradiction; [apply W, K|exact I].
  - destruct Hx as (-> & -> & -> & Hd). rewrite <- H1, <- HL, H2, H2w.
    assert (K : res_rel (Forall2 Ro) (add_mat_rows nr' n 0 d (a_rows a)) (add_mat_rows nr' m 0 d' (a_rows a'))) by (apply add_mat_only; assumption).
    assert (Bb : forall k, broadcasts k k = true) by (intros k; unfold broadcasts; rewrite Nat.eqb_refl; reflexivity).
    rewrite !Bb. destruct (broadcasts nr' (a_len a)); [|destruct (a_dt a); exact I]. cbn [andb].
    destruct (a_dt a); [exact I| |];
    destruct (add_mat_rows nr' n 0 d (a_rows a)), (add_mat_rows nr' m 0 d' (a_rows a')); cbn in K |- *; try contradiction; try exact I;
    (split; [reflexivity|split; [split; reflexivity|exact K]]).
Qed.

(* ---------------- learning ---------------- *)
Lemma rows_full l l' : Forall2 Ro l l' -> Forall (fun r => List.length r = n /\ Forall numeric r) l.
Proof. induction 1 as [|r r' l l' (H1 & H2 & _) H IH]; constructor; auto. Qed.
Lemma rows_only l l' : Forall2 Ro l l' -> Forall (fun r => List.length r = m /\ Forall numeric r) l'.
Proof.
  induction 1 as [|r r' l l' (H1 & H2 & ->) H IH]; constructor; auto. split; [apply sel_len|apply sel_Forall; assumption].
Qed.
Lemma vcol_only a a' k : Ra a a' -> k < m -> vcol a' k = vcol a (nth k sigma 0).
Proof.
  intros (_ & _ & H) Hk. unfold vcol. induction H as [|r r' l l' (H1 & H2 & ->) H IH]; cbn [map]; [reflexivity|].
  rewrite IH, sel_nth by exact Hk. reflexivity.
Qed.
Lemma col_full a a' i : Ra a a' -> i < n -> num_col a i = Ok (vcol a i).
Proof. intros (_ & (H2 & _) & H3). apply num_col_at; [exact H2|exact (rows_full _ _ H3)]. Qed.
Lemma col_only a a' k : Ra a a' -> k < m -> num_col a' k = Ok (vcol a (nth k sigma 0)).
Proof.
  intros H Hk. rewrite <- (vcol_only a a' k H Hk). destruct H as (_ & (_ & H2) & H3). exact (num_col_at m a' k H2 (rows_only _ _ H3) Hk).
Qed.
Lemma learn_both {T} (upd upd' : nat -> res (T * T)) (u : nat -> T * T) (d : T * T) pm pm' :
  List.length pm = n -> List.length pm' = m ->
  (forall k, k < n -> upd k = Ok (u k)) -> (forall k, k < m -> upd' k = Ok (u (nth k sigma 0))) ->
  learn_from upd 0 pm = (Ok tt, tabulate n u) /\ learn_from upd' 0 pm' = (Ok tt, sel d (tabulate n u)).
Proof.
  intros L L' H H'. rewrite (learn_tab upd u pm 0) by (intros k Hk; rewrite L in Hk; apply H, Hk).
  rewrite (learn_tab upd' (fun k => u (nth k sigma 0)) pm' 0) by (intros k Hk; rewrite L' in Hk; apply H', Hk).
  rewrite L, L'. split; [reflexivity|]. f_equal. exact (sel_tabulate d u (fun k => u (nth k sigma 0)) (fun _ _ => eq_refl)).
Qed.

Lemma unigauss_only o lo a a' pm : Ra a a' -> List.length pm = n ->
  exists q, List.length q = n /\ unigauss_learn o lo (num_col a) pm = (Ok tt, q) /\
            unigauss_learn o lo (num_col a') (sel pair0 pm) = (Ok tt, sel pair0 q).
Proof.
  intros Ha L. set (u := fun k => (mean o (vcol a k), raise_to o lo (std o (vcol a k)))).
  exists (tabulate n u). split; [apply tabulate_length|]. unfold unigauss_learn.
  apply learn_both; [exact L|apply sel_len| |]; intros k Hk; unfold unigauss_upd.
  - rewrite (col_full a a' k Ha Hk). reflexivity.
  - rewrite (col_only a a' k Ha Hk). reflexivity.
Qed.
Lemma adapt_only o lo al a a' pm : Ra a a' -> List.length pm = n ->
  exists r q, List.length q = n /\ adapt_learn o lo al (num_col a) pm = (r, q) /\
              adapt_learn o lo al (num_col a') (sel pair0 pm) = (r, sel pair0 q).
Proof.
  intros Ha L. unfold adapt_learn. pose proof only_pos as [P1 P2].
  destruct (a_rows a) as [|r1 [|r2 rs]] eqn:E.
  1,2: exists (Raise IndexError), pm; split; [exact L|];
     pose proof (sel_len pair0 pm) as L'; destruct pm as [|p pm]; [cbn in L; lia|];
     destruct (sel pair0 (p :: pm)) as [|p' pm'] eqn:S; [cbn in L'; lia|]; cbn [learn_from]; unfold adapt_upd;
     rewrite (col_full a a' 0 Ha), (col_only a a' 0 Ha) by lia; cbn [rbind]; unfold vcol; rewrite E; cbn [map]; split; reflexivity.
  set (u := fun k => let x := vcol a k in
      (o_add o (o_mul o (o_sub o (o_ofZ o 1) al) (mean o x))
               (o_mul o al (o_sub o (o_add o (nth 0 x fnan) (nth 1 x fnan)) (last x (nth 0 x fnan)))), raise_to o lo (std o x))).
  exists (Ok tt), (tabulate n u). split; [apply tabulate_length|].
  assert (K : forall k, match vcol a k with b1 :: b2 :: _ =>
            Ok (o_add o (o_mul o (o_sub o (o_ofZ o 1) al) (mean o (vcol a k)))
                        (o_mul o al (o_sub o (o_add o b1 b2) (last (vcol a k) b1))), raise_to o lo (std o (vcol a k)))
          | _ => Raise IndexError end = Ok (u k)).
  { intros k. unfold u. unfold vcol. rewrite E. reflexivity. }
  apply learn_both; [exact L|apply sel_len| |]; intros k Hk; unfold adapt_upd.
  - rewrite (col_full a a' k Ha Hk). apply K.
  - rewrite (col_only a a' k Ha Hk). apply K.
Qed.

(* UniBin *)
Lemma sum_rows_only (l l' : list row) : Forall2 Ro l l' -> forall acc acc', Ro acc acc' ->
  exists t t', sum_rows acc l = Ok t /\ sum_rows acc' l' = Ok t' /\ Ro t t'.
Proof.
  induction 1 as [|r r' l l' Hr H IH]; intros acc acc' Ha; cbn [sum_rows]; [exists acc, acc'; auto|].
  destruct Hr as (R1 & R2 & ->), Ha as (A1 & A2 & ->).
  destruct (row_add_num acc A2 r R2) as (t & E & L1 & F & K); [lia|].
  destruct (row_add_num (sel (CF fnan) acc) (sel_Forall _ _ _ A1 A2) (sel (CF fnan) r) (sel_Forall _ _ _ R1 R2)) as (t' & E' & L1' & F' & K'); [rewrite !sel_len; reflexivity|].
  rewrite E, E'. cbn [rbind]. apply IH. split; [lia|]. split; [exact F|].
  rewrite sel_len in L1', K'. apply sel_intro; [exact L1'|]. intros k Hk. pose proof (only_lt k Hk) as Hk'.
  rewrite K', K by lia. rewrite !sel_nth by exact Hk. reflexivity.
Qed.
Lemma unibin_only a a' lo hi pm : Ra a a' -> List.length pm = n ->
  exists r q, List.length q = n /\ unibin_learn a (mkUB n lo hi pm) = (r, mkUB n lo hi q) /\
              unibin_learn a' (mkUB m lo hi (sel fnan pm)) = (r, mkUB m lo hi (sel fnan q)).
Proof.
  intros Ha L. pose proof Ha as (_ & (H2 & H2w) & H3). unfold unibin_learn, unibin_probs. cbn [ub_lo ub_hi ub_n].
  assert (Z : Ro (repeat (CI 0%Z) n) (repeat (CI 0%Z) m)).
  { split; [apply repeat_length|]. split; [apply Forall_forall; intros x Hx; apply repeat_spec in Hx; subst x; reflexivity|].
    symmetry. apply sel_const. }
  destruct (sum_rows_only _ _ H3 _ _ Z) as (t & t' & E & E' & (T1 & T2 & T3)).
  rewrite H2, H2w. pose proof (Forall2_length _ _ _ H3) as HL.
  destruct (a_rows a) as [|r rs], (a_rows a') as [|r' rs']; try discriminate HL.
  - exists (Raise ZeroDivisionError), pm. split; [exact L|]. split; reflexivity.
  - rewrite E, E', <- HL. cbn [rbind].
    rewrite (rmapM_all cell_num val t) by (eapply Forall_impl; [|exact T2]; exact cell_num_val).
    rewrite (rmapM_all cell_num val t') by (rewrite T3; eapply Forall_impl; [|apply sel_Forall; [exact T1|exact T2]]; exact cell_num_val).
    cbn [rbind]. subst t'. eexists (Ok tt), _. split; [|split; [reflexivity|]].
    + rewrite !map_length. exact T1.
    + rewrite <- (sel_map val (CF fnan) fnan t T1). rewrite (sel_map _ fnan fnan) by (rewrite map_length; exact T1). reflexivity.
Qed.

(* ---------------- sampling ---------------- *)
Context {W : Type}.
Variables g g' : rng W.
Hypothesis Hg : draws_of n sigma g g'.
Lemma unif_of r w : snd (g_unif g' r m w) = snd (g_unif g r n w) /\
  forall i k, k < m -> fst (g_unif g' r m w) i k = fst (g_unif g r n w) i (nth k sigma 0).
Proof. exact (proj1 (Hg r w)). Qed.
Lemma gauss_of r w : snd (g_gauss g' r m w) = snd (g_gauss g r n w) /\
  forall i k, k < m -> fst (g_gauss g' r m w) i k = fst (g_gauss g r n w) i (nth k sigma 0).
Proof. exact (proj2 (Hg r w)). Qed.

Definition draw_le (x y : res arr * W) : Prop := res_le (fun a a' => Ra a a' /\ snd x = snd y) (fst x) (fst y).

Lemma normal_only loc scale size w : List.length loc = n -> List.length scale = n ->
  draw_le (np_normal g loc scale size n w) (np_normal g' (sel fnan loc) (sel fnan scale) size m w).
Proof.
  intros L1 L2. unfold np_normal. rewrite !sel_len, L1, L2.
  destruct (existsb neg_signed scale) eqn:Ex; [exact I|]. rewrite (sel_existsb _ _ _ L2 Ex). destruct (size <? 0)%Z; [exact I|].
  unfold broadcasts. rewrite !Nat.eqb_refl. cbn [orb andb negb].
  destruct (gauss_of (Z.to_nat size) w) as [G1 G2].
  destruct (g_gauss g (Z.to_nat size) n w) as [z w1], (g_gauss g' (Z.to_nat size) m w) as [z' w2]. cbn [fst snd] in *.
  split; [|cbn; congruence]. cbn [fst res_rel]. apply float_arr_only. intros i k Hk. pose proof (only_lt k Hk) as Hk'.
  rewrite !bidx_lt by assumption. rewrite !sel_nth by exact Hk. rewrite G2 by exact Hk. reflexivity.
Qed.
Lemma bound_only b : broadcasts (bound_len b) n = true ->
  bound_len (only_bound n sigma b) = (if Nat.eqb (bound_len b) n then match b with BList _ _ => m | _ => 1 end else 1) /\
  broadcasts (bound_len (only_bound n sigma b)) m = true /\
  forall k, k < m -> bound_at (only_bound n sigma b) k = bound_at b (nth k sigma 0).
Proof.
  intros H. unfold broadcasts in *. destruct b as [|p|t l]; cbn [only_bound bound_len bound_at] in *.
  - rewrite orb_true_r. split; [destruct (Nat.eqb 1 n); reflexivity|]. split; [reflexivity|]. reflexivity.
  - rewrite orb_true_r. split; [destruct (Nat.eqb 1 n); reflexivity|]. split; [reflexivity|]. reflexivity.
  - unfold only. destruct (Nat.eqb_spec (List.length l) n) as [E|E].
    + rewrite map_length, Nat.eqb_refl. split; [reflexivity|]. split; [reflexivity|]. intros k Hk. pose proof (only_lt k Hk) as Hk'.
      rewrite E, !bidx_lt by assumption. exact (sel_nth fnan fnan l k Hk).
    + cbn [orb] in H. rewrite H, orb_true_r. apply Nat.eqb_eq in H. split; [exact H|]. split; [reflexivity|].
      intros k Hk. rewrite H. unfold bidx. reflexivity.
Qed.
Lemma uniform_only lo hi size w :
  draw_le (np_uniform g lo hi size n w) (np_uniform g' (only_bound n sigma lo) (only_bound n sigma hi) size m w).
Proof.
  pose proof only_pos as [P1 P2].
  assert (Main : broadcasts (bound_len lo) n = true -> broadcasts (bound_len hi) n = true ->
    forallb (fun j => isfin (fsub (bound_at hi j) (bound_at lo j))) (seq 0 (Nat.max (bound_len lo) (bound_len hi))) = true ->
    bres (bound_len (only_bound n sigma lo)) (bound_len (only_bound n sigma hi)) <> None /\
    forallb (fun j => isfin (fsub (bound_at (only_bound n sigma hi) j) (bound_at (only_bound n sigma lo) j)))
      (seq 0 (Nat.max (bound_len (only_bound n sigma lo)) (bound_len (only_bound n sigma hi)))) = true).
  { intros Bl Bh F. destruct (bound_only lo Bl) as (Ll & Cl & Al), (bound_only hi Bh) as (Lh & Ch & Ah). unfold broadcasts in *. split.
    - unfold bres. destruct (Nat.eqb_spec (bound_len (only_bound n sigma lo)) (bound_len (only_bound n sigma hi))) as [|D]; [discriminate|].
      destruct (Nat.eqb_spec (bound_len (only_bound n sigma lo)) 1); [discriminate|].
      destruct (Nat.eqb_spec (bound_len (only_bound n sigma hi)) 1); [discriminate|].
      rewrite !orb_false_r in Cl, Ch. apply Nat.eqb_eq in Cl, Ch. congruence.
    - rewrite forallb_forall in F |- *. intros k Hk. apply in_seq in Hk.
      assert (Hkm : k < m).
      { destruct (Nat.eqb_spec (bound_len (only_bound n sigma lo)) 1), (Nat.eqb_spec (bound_len (only_bound n sigma hi)) 1);
          rewrite ?orb_false_r in *; rewrite ?Nat.eqb_eq in *; lia. }
      rewrite Al, Ah by exact Hkm. pose proof (only_lt k Hkm) as Hk'.
      assert (K : forall b j, broadcasts (bound_len b) n = true -> j < n -> bound_len b <> n -> bound_at b j = bound_at b 0).
      { intros [|p|t l] j B Hj Hne; try reflexivity. cbn [bound_len bound_at] in *. unfold broadcasts in B.
        destruct (Nat.eqb_spec (List.length l) n); [contradiction|]. cbn [orb] in B. unfold bidx. rewrite B. reflexivity. }
      destruct (Nat.eq_dec (Nat.max (bound_len lo) (bound_len hi)) n) as [M|M].
      + apply F, in_seq. lia.
      + assert (Nl : bound_len lo <> n /\ bound_len hi <> n).
        { destruct (Nat.eqb_spec (bound_len lo) n) as [El|El], (Nat.eqb_spec (bound_len hi) n) as [Eh|Eh]; cbn [orb] in *;
            rewrite ?Nat.eqb_eq in *; split; try assumption; intros ?; lia. }
        rewrite (K lo), (K hi) by (try assumption; apply Nl). apply F, in_seq.
        destruct Nl as [Nl Nh]. apply Nat.eqb_neq in Nl, Nh. rewrite Nl in Bl. cbn [orb] in Bl. apply Nat.eqb_eq in Bl. lia. }
  assert (Draw : broadcasts (bound_len lo) n = true -> broadcasts (bound_len hi) n = true ->
    draw_le (let (u, w') := g_unif g (Z.to_nat size) n w in
        (Ok (float_arr (Z.to_nat size) n (fun i j => fadd (bound_at lo j) (fmul (fsub (bound_at hi j) (bound_at lo j)) (u i j)))), w'))
      (let (u, w') := g_unif g' (Z.to_nat size) m w in
        (Ok (float_arr (Z.to_nat size) m (fun i j => fadd (bound_at (only_bound n sigma lo) j)
           (fmul (fsub (bound_at (only_bound n sigma hi) j) (bound_at (only_bound n sigma lo) j)) (u i j)))), w'))).
  { intros Bl Bh. destruct (bound_only lo Bl) as (_ & _ & Al), (bound_only hi Bh) as (_ & _ & Ah).
    destruct (unif_of (Z.to_nat size) w) as [G1 G2].
    destruct (g_unif g (Z.to_nat size) n w) as [z w1], (g_unif g' (Z.to_nat size) m w) as [z' w2]. cbn [fst snd] in *.
    split; [|cbn; congruence]. apply float_arr_only. intros i k Hk. rewrite Al, Ah, G2 by exact Hk. reflexivity. }
  assert (Tail : forall q q' : bool,
    (q' = true -> q = true \/ bres (bound_len (only_bound n sigma lo)) (bound_len (only_bound n sigma hi)) = None) ->
    draw_le
      (if q then (Raise ValueError, w)
       else if negb (forallb (fun j => isfin (fsub (bound_at hi j) (bound_at lo j))) (seq 0 (Nat.max (bound_len lo) (bound_len hi)))) then (Raise OverflowError, w)
       else if (size <? 0)%Z then (Raise ValueError, w)
       else if negb (broadcasts (bound_len lo) n && broadcasts (bound_len hi) n) then (Raise ValueError, w)
       else let (u, w') := g_unif g (Z.to_nat size) n w in
        (Ok (float_arr (Z.to_nat size) n (fun i j => fadd (bound_at lo j) (fmul (fsub (bound_at hi j) (bound_at lo j)) (u i j)))), w'))
      (if q' then (Raise ValueError, w)
       else if negb (forallb (fun j => isfin (fsub (bound_at (only_bound n sigma hi) j) (bound_at (only_bound n sigma lo) j)))
               (seq 0 (Nat.max (bound_len (only_bound n sigma lo)) (bound_len (only_bound n sigma hi))))) then (Raise OverflowError, w)
       else if (size <? 0)%Z then (Raise ValueError, w)
       else if negb (broadcasts (bound_len (only_bound n sigma lo)) m && broadcasts (bound_len (only_bound n sigma hi)) m) then (Raise ValueError, w)
       else let (u, w') := g_unif g' (Z.to_nat size) m w in
        (Ok (float_arr (Z.to_nat size) m (fun i j => fadd (bound_at (only_bound n sigma lo) j)
           (fmul (fsub (bound_at (only_bound n sigma hi) j) (bound_at (only_bound n sigma lo) j)) (u i j)))), w'))).
  { intros q q' Hq. destruct q; [exact I|]. destruct (forallb (fun j => isfin (fsub (bound_at hi j) (bound_at lo j))) _) eqn:F; [|exact I].
    cbn [negb]. destruct (size <? 0)%Z; [exact I|]. destruct (broadcasts (bound_len lo) n) eqn:Bl; [|exact I].
    destruct (broadcasts (bound_len hi) n) eqn:Bh; [|exact I]. cbn [andb negb]. destruct (Main eq_refl eq_refl eq_refl) as [M1 M2].
    destruct q'; [destruct (Hq eq_refl) as [Q|Q]; [discriminate Q|contradiction]|]. rewrite M2. cbn [negb].
    destruct (bound_only lo Bl) as (_ & Cl & _), (bound_only hi Bh) as (_ & Ch & _). rewrite Cl, Ch. cbn [andb negb]. exact (Draw eq_refl eq_refl). }
  unfold np_uniform. destruct lo as [|p|t l], hi as [|p'|t' l']; try exact I; cbn [only_bound] in *;
    first [apply (Tail false false); discriminate
          |apply Tail; match goal with |- context [_ \/ bres ?a ?b = None] => destruct (bres a b); [discriminate|intros _; right; reflexivity] end].
Qed.
Lemma unibin_draw_only lo hi pm size w : List.length pm = n ->
  draw_le (unibin_sample g (mkUB n lo hi pm) size w) (unibin_sample g' (mkUB m lo hi (sel fnan pm)) size w).
Proof.
  intros L. unfold unibin_sample. cbn [ub_n ub_pm]. destruct (size <? 0)%Z; [exact I|]. rewrite sel_len, L.
  unfold bres. rewrite !Nat.eqb_refl.
  destruct (unif_of (Z.to_nat size) w) as [G1 G2].
  destruct (g_unif g (Z.to_nat size) n w) as [z w1], (g_unif g' (Z.to_nat size) m w) as [z' w2]. cbn [fst snd] in *.
  split; [|cbn; congruence]. split; [reflexivity|]. split; [split; reflexivity|]. cbn [a_rows].
  apply (rows_tabulate (Z.to_nat size) (fun i j => CI (if flt (z i (bidx n j)) (nth (bidx n j) pm fnan) then 1 else 0)%Z)
           (fun i j => CI (if flt (z' i (bidx m j)) (nth (bidx m j) (sel fnan pm) fnan) then 1 else 0)%Z)); [reflexivity|].
  intros i k Hk. pose proof (only_lt k Hk) as Hk'. rewrite !bidx_lt by assumption. rewrite sel_nth, G2 by exact Hk. reflexivity.
Qed.
Lemma gauss_draw_only pm size w : List.length pm = n ->
  draw_le (gauss_sample g pm size w) (gauss_sample g' (sel pair0 pm) size w).
Proof.
  intros L. unfold gauss_sample. rewrite sel_len, L. rewrite <- !(sel_map _ pair0 fnan pm L).
  apply normal_only; rewrite map_length; exact L.
Qed.

End Sel.
