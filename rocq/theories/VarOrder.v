(** The order of the variables: runs whose variables are listed in another order. *)
From Coq Require Import String List ZArith Bool Lia Permutation.
From Verif Require Import PyBase B64 B64More NdArray Eda EdaInv Rand Models Inits Stock Spec LoopObs LoopRel OrderRel LoopMap.
Import ListNotations.
Open Scope nat_scope.

(** The entries of [l] in the order [sigma]: entry [k] of the result is entry [sigma[k]] of [l].
    A list that has another length is left as it is. *)
Definition reorder {A} (sigma : list nat) (d : A) (l : list A) : list A :=
  if Nat.eqb (List.length l) (List.length sigma) then map (fun j => nth j l d) sigma else l.
(** An individual with its variables in the order [sigma]. *)
Definition reorder_row (sigma : list nat) : row -> row := reorder sigma (CF fnan).
(** A bound given per variable. *)
Definition reorder_bound (sigma : list nat) (b : bound) : bound :=
  match b with BList t l => BList t (reorder sigma fnan l) | _ => b end.
(** The arguments of an optimiser: only the given first generation mentions variables. *)
Definition reorder_args (sigma : list nat) (a : args) : args :=
  mkArgs (g_size_gen a) (g_max_iter a) (g_dead_iter a) (g_nvars a) (g_alpha a) (g_elite_factor a) (g_disp a)
         (g_parallelize a) (option_map (map_arr (reorder_row sigma)) (g_init_data a)).
(** A given first generation is a matrix of numbers. *)
Definition number_matrix (a : arr) : Prop :=
  Forall (fun r => List.length r = a_nc a /\ Forall (fun c => is_str c = false) r) (a_rows a).
(** The generator [g'] gives every variable the numbers that [g] gives it. *)
Definition draws_follow {W} (sigma : list nat) (g g' : rng W) : Prop :=
  let n := List.length sigma in
  forall r w,
    (snd (g_unif g' r n w) = snd (g_unif g r n w) /\
     forall i k, k < n -> fst (g_unif g' r n w) i k = fst (g_unif g r n w) i (nth k sigma 0)) /\
    (snd (g_gauss g' r n w) = snd (g_gauss g r n w) /\
     forall i k, k < n -> fst (g_gauss g' r n w) i k = fst (g_gauss g r n w) i (nth k sigma 0)).
(** The same machine with another generator. *)
Definition with_rng {X W} (E : env X W) (g : rng W) : env X W :=
  mkEnv g (e_sum E) (e_str E) (e_argsort E) (e_pool E) (e_xnew E) (e_xlearn E) (e_xsample E).

(* ---------------- lists ---------------- *)
Lemma rmapM_rel {A B A' B'} (R : A -> A' -> Prop) (S : B -> B' -> Prop) (f : A -> res B) (f' : A' -> res B') l l' :
  Forall2 R l l' -> (forall a a', R a a' -> res_rel S (f a) (f' a')) -> res_rel (Forall2 S) (rmapM f l) (rmapM f' l').
Proof.
  intros H Hf. induction H as [|a a' l l' Ha H IH]; cbn [rmapM]; [constructor|].
  pose proof (Hf a a' Ha) as Hx. destruct (f a), (f' a'); cbn in Hx |- *; try contradiction; [|exact Hx].
  destruct (rmapM f l), (rmapM f' l'); cbn in IH |- *; try contradiction; [constructor; assumption|exact IH].
Qed.
Lemma rmapM_all {A B} (f : A -> res B) (h : A -> B) l : Forall (fun a => f a = Ok (h a)) l -> rmapM f l = Ok (map h l).
Proof. induction 1 as [|a l Ha H IH]; cbn [rmapM map]; [reflexivity|]. rewrite Ha, IH. reflexivity. Qed.
Lemma existsb_perm {A} (p : A -> bool) l l' : Permutation l l' -> existsb p l = existsb p l'.
Proof.
  induction 1; cbn; [reflexivity|congruence| |congruence]. destruct (p x), (p y); reflexivity.
Qed.
Lemma forallb_perm {A} (p : A -> bool) l l' : Permutation l l' -> forallb p l = forallb p l'.
Proof.
  induction 1; cbn; [reflexivity|congruence| |congruence]. destruct (p x), (p y); reflexivity.
Qed.
Lemma bidx_lt n j : j < n -> bidx n j = j.
Proof. intros H. unfold bidx. destruct (Nat.eqb_spec n 1); lia. Qed.

Section Perm.
Variables (n : nat) (sigma : list nat).
Hypothesis Hs : Permutation sigma (seq 0 n).

Lemma sigma_len : List.length sigma = n.
Proof. rewrite (Permutation_length Hs), seq_length. reflexivity. Qed.
Lemma sigma_in j : In j sigma -> j < n.
Proof. intros H. apply (Permutation_in _ Hs), in_seq in H. lia. Qed.
Lemma sigma_lt k : k < n -> nth k sigma 0 < n.
Proof. intros H. apply sigma_in, nth_In. rewrite sigma_len. exact H. Qed.

Definition sel {A} (d : A) (l : list A) : list A := map (fun j => nth j l d) sigma.
Lemma sel_len {A} (d : A) l : List.length (sel d l) = n.
Proof. unfold sel. rewrite map_length. apply sigma_len. Qed.
Lemma sel_nth {A} (d e : A) l k : k < n -> nth k (sel d l) e = nth (nth k sigma 0) l d.
Proof.
  intros H. unfold sel. rewrite (nth_indep _ e (nth 0 l d)) by (rewrite map_length, sigma_len; exact H).
  apply (map_nth (fun j => nth j l d)).
Qed.
Lemma reorder_sel {A} (d : A) l : List.length l = n -> reorder sigma d l = sel d l.
Proof. intros H. unfold reorder. rewrite sigma_len, H, Nat.eqb_refl. reflexivity. Qed.
Lemma reorder_len {A} (d : A) l : List.length (reorder sigma d l) = List.length l.
Proof.
  unfold reorder. destruct (Nat.eqb_spec (List.length l) (List.length sigma)) as [E|E]; [|reflexivity]. rewrite map_length. lia.
Qed.
Lemma list_ext {A} (d : A) l l' : List.length l = List.length l' -> (forall k, k < List.length l -> nth k l d = nth k l' d) -> l = l'.
Proof.
  revert l'. induction l as [|x l IH]; intros [|x' l'] HL H; try discriminate HL; [reflexivity|].
  f_equal; [apply (H 0); cbn; lia|]. apply IH; [cbn in HL; lia|]. intros k Hk. apply (H (S k)). cbn. lia.
Qed.
Lemma sel_intro {A} (d : A) l l' : List.length l' = n -> (forall k, k < n -> nth k l' d = nth (nth k sigma 0) l d) -> l' = sel d l.
Proof.
  intros HL H. apply (list_ext d); [rewrite sel_len; exact HL|]. intros k Hk. rewrite sel_nth by lia. apply H. lia.
Qed.
Lemma sel_perm {A} (d : A) l : List.length l = n -> Permutation (sel d l) l.
Proof.
  intros H. unfold sel. transitivity (map (fun j => nth j l d) (seq 0 n)); [apply Permutation_map, Hs|].
  replace (map (fun j => nth j l d) (seq 0 n)) with l; [reflexivity|].
  apply (list_ext d); [rewrite map_length, seq_length; exact H|]. intros k Hk.
  symmetry. exact (nth_tabulate n (fun j => nth j l d) k d ltac:(lia)).
Qed.
Lemma sel_map {A B} (h : A -> B) (d : A) (e : B) l : List.length l = n -> sel e (map h l) = map h (sel d l).
Proof.
  intros H. unfold sel. rewrite map_map. apply map_ext_in. intros j Hj. apply sigma_in in Hj.
  rewrite (nth_indep _ e (h d)) by (rewrite map_length; lia). apply map_nth.
Qed.
Lemma sel_const {A} (d x : A) : sel d (repeat x n) = repeat x n.
Proof.
  symmetry. apply sel_intro; [apply repeat_length|]. intros k Hk. pose proof (sigma_lt k Hk) as Hk'.
  rewrite (nth_indep _ d x), (nth_indep _ d x) by (rewrite repeat_length; assumption). rewrite !nth_repeat. reflexivity.
Qed.
Lemma sel_tabulate {A} (d : A) f f' : (forall k, k < n -> f' k = f (nth k sigma 0)) -> tabulate n f' = sel d (tabulate n f).
Proof.
  intros H. apply sel_intro; [apply tabulate_length|]. intros k Hk. rewrite !nth_tabulate by (try exact Hk; apply sigma_lt, Hk). apply H, Hk.
Qed.
Lemma sel_Forall {A} (P : A -> Prop) d l : List.length l = n -> Forall P l -> Forall P (sel d l).
Proof. intros H HP. exact (Permutation_Forall (Permutation_sym (sel_perm d l H)) HP). Qed.

(* ---------------- rows and arrays ---------------- *)
Definition numeric (c : cell) : Prop := is_str c = false.
Definition Rr (r r' : row) : Prop := List.length r = n /\ Forall numeric r /\ r' = sel (CF fnan) r.
Definition wid (m : nat) : Prop := m = n.
Local Notation Ra := (arr_rel Rr wid).

Lemma Rr_cast d r r' : Rr r r' -> Rr (map (cast_cell d) r) (map (cast_cell d) r').
Proof.
  intros (H1 & H2 & ->). split; [rewrite map_length; exact H1|]. split.
  - apply Forall_map. eapply Forall_impl; [|exact H2]. intros c. destruct c, d; cbn; auto.
  - symmetry. apply sel_map, H1.
Qed.
Lemma Rr_fun r r' : Rr r r' -> r' = reorder_row sigma r.
Proof. intros (H1 & _ & ->). symmetry. apply reorder_sel, H1. Qed.
Lemma Rr_map (h : cell -> cell) r r' : (forall c, numeric c -> numeric (h c)) -> Rr r r' -> Rr (map h r) (map h r').
Proof.
  intros Hh (H1 & H2 & ->). split; [rewrite map_length; exact H1|]. split.
  - apply Forall_map. eapply Forall_impl; [|exact H2]. exact Hh.
  - symmetry. apply sel_map, H1.
Qed.
Lemma rows_tabulate m (f f' : nat -> nat -> cell) :
  (forall i k, numeric (f i k)) -> (forall i k, k < n -> f' i k = f i (nth k sigma 0)) ->
  Forall2 Rr (tabulate m (fun i => tabulate n (f i))) (tabulate m (fun i => tabulate n (f' i))).
Proof.
  intros Hn H. unfold tabulate at 1 3. induction (seq 0 m) as [|i l IH]; cbn [map]; constructor; [|exact IH].
  split; [apply tabulate_length|]. split; [apply Forall_tabulate; intros; apply Hn|]. apply sel_tabulate. intros k Hk. apply H, Hk.
Qed.
Lemma float_arr_rel m f f' : (forall i k, k < n -> f' i k = f i (nth k sigma 0)) -> Ra (float_arr m n f) (float_arr m n f').
Proof.
  intros H. split; [reflexivity|]. split; [split; reflexivity|]. cbn [float_arr a_rows].
  apply (rows_tabulate m (fun i j => CF (f i j)) (fun i j => CF (f' i j))); [reflexivity|]. intros i k Hk. rewrite H by exact Hk. reflexivity.
Qed.

(* ---------------- the noise ---------------- *)
Definition Rn (x x' : noise) : Prop :=
  match x, x' with
  | NoiseZero, NoiseZero | NoiseStr, NoiseStr => True
  | NoiseMat nr nc d, NoiseMat nr' nc' d' => nr = nr' /\ nc = n /\ nc' = n /\ forall i k, k < n -> d' i k = d i (nth k sigma 0)
  | _, _ => False
  end.
Definition plus_cell (d : f64) (c : cell) : cell := match c with CI z => CF (fadd (Z2f z) d) | CF x => CF (fadd x d) | CS s => CS s end.
Lemma add_cells_at draw i nc r : Forall numeric r -> forall j, j + List.length r <= nc ->
  exists t, add_mat_cells nc i j draw r = Ok t /\ List.length t = List.length r /\ Forall numeric t /\
    forall k, k < List.length r -> nth k t (CF fnan) = plus_cell (draw i (j + k)) (nth k r (CF fnan)).
Proof.
  induction 1 as [|c r Hc H IH]; intros j Hj; cbn [add_mat_cells].
  - exists []. repeat split; [constructor|]. cbn. lia.
  - cbn [List.length] in Hj. destruct (IH (S j)) as (t & E & HL & HF & HK); [lia|].
    rewrite (bidx_lt nc j) by lia. exists (plus_cell (draw i j) c :: t).
    split; [|split; [cbn; lia|split]].
    + destruct c; [| |discriminate Hc]; cbn [add_cell rbind]; rewrite E; reflexivity.
    + constructor; [|exact HF]. destruct c; [reflexivity|reflexivity|discriminate Hc].
    + intros [|k] Hk; cbn [nth].
      * rewrite Nat.add_0_r. reflexivity.
      * rewrite HK by (cbn in Hk; lia). f_equal. f_equal. lia.
Qed.
Lemma add_mat_rel nr draw draw' : (forall i k, k < n -> draw' i k = draw i (nth k sigma 0)) -> forall l l', Forall2 Rr l l' -> forall i,
  res_rel (Forall2 Rr) (add_mat_rows nr n i draw l) (add_mat_rows nr n i draw' l').
Proof.
  intros Hd l l' H. induction H as [|r r' l l' Hr H IH]; intros i; cbn [add_mat_rows]; [constructor|].
  destruct Hr as (H1 & H2 & ->).
  destruct (add_cells_at draw (bidx nr i) n r H2 0) as (t & E & HL & HF & HK); [lia|].
  destruct (add_cells_at draw' (bidx nr i) n (sel (CF fnan) r) (sel_Forall _ _ _ H1 H2) 0) as (t' & E' & HL' & HF' & HK'); [rewrite sel_len; lia|].
  rewrite E, E'. cbn [rbind]. specialize (IH (S i)).
  destruct (add_mat_rows nr n (S i) draw l), (add_mat_rows nr n (S i) draw' l'); cbn in IH |- *; try contradiction; [|exact IH].
  constructor; [|exact IH]. split; [lia|]. split; [exact HF|]. rewrite sel_len in HL', HK'. apply sel_intro; [exact HL'|].
  intros k Hk. pose proof (sigma_lt k Hk) as Hk'. rewrite HK', HK by lia. rewrite sel_nth by exact Hk. cbn [plus]. rewrite Hd by exact Hk. reflexivity.
Qed.
Lemma iadd_rel a a' x x' : Ra a a' -> Rn x x' -> res_rel Ra (iadd a x) (iadd a' x').
Proof.
  intros (H1 & (H2 & H2w) & H3) Hx. assert (HL : a_len a = a_len a') by (unfold a_len; exact (Forall2_length _ _ _ H3)).
  assert (W : forall d (l l' : list row), Forall2 Rr l l' -> Ra (mkArr d (a_nc a) l) (mkArr d (a_nc a') l')).
  { intros d l l' Hl. split; [reflexivity|]. split; [split; [exact H2|exact H2w]|exact Hl]. }
  destruct x as [| |nr nc d], x' as [| |nr' nc' d']; try contradiction; unfold iadd.
  - rewrite <- H1. assert (K : res_rel (Forall2 Rr) (rmapM (rmapM add_zero_cell) (a_rows a)) (rmapM (rmapM add_zero_cell) (a_rows a'))).
    { eapply rmapM_rel; [exact H3|]. intros r r' Hr. pose proof Hr as (L1 & L2 & L3).
      set (z := fun c => match c with CI z => CI z | CF x => CF (fadd x (Z2f 0)) | CS s => CS s end).
      assert (Hz : forall l, Forall numeric l -> rmapM add_zero_cell l = Ok (map z l)).
      { intros l Hl. apply rmapM_all. eapply Forall_impl; [|exact Hl]. intros [| |]; cbn; [reflexivity|reflexivity|discriminate]. }
      rewrite (Hz r L2), (Hz r') by (rewrite L3; apply sel_Forall; assumption). cbn [res_rel]. apply Rr_map; [|exact Hr].
      intros [| |]; cbn; auto. }
    destruct (rmapM (rmapM add_zero_cell) (a_rows a)), (rmapM (rmapM add_zero_cell) (a_rows a')); cbn in K |- *; try contradiction; [apply W, K|exact K].
  - rewrite <- H1. destruct (a_dt a); try reflexivity.
    assert (K : res_rel (Forall2 Rr) (rmapM (rmapM add_str_cell) (a_rows a)) (rmapM (rmapM add_str_cell) (a_rows a'))).
    { eapply rmapM_rel; [exact H3|]. intros r r' Hr. pose proof Hr as (L1 & L2 & L3).
      pose proof (sel_len (CF fnan) r) as L4. rewrite <- L3 in L4.
      assert (L5 : Forall numeric r') by (rewrite L3; apply sel_Forall; assumption).
      destruct r as [|c r], r' as [|c' r']; cbn in L1, L4; try lia; [cbn; exact Hr|].
      inversion L2 as [|? ? N1 _]; inversion L5 as [|? ? N2 _]; subst.
      destruct c, c'; try discriminate N1; try discriminate N2; reflexivity. }
    destruct (rmapM (rmapM add_str_cell) (a_rows a)), (rmapM (rmapM add_str_cell) (a_rows a')); cbn in K |- *; try contradiction; [apply W, K|exact K].
  - destruct Hx as (-> & -> & -> & Hd). rewrite <- H1, <- HL, <- H2.
    assert (K : res_rel (Forall2 Rr) (add_mat_rows nr' n 0 d (a_rows a)) (add_mat_rows nr' n 0 d' (a_rows a'))) by (apply add_mat_rel; assumption).
    destruct (a_dt a); [reflexivity| |]; (destruct (_ && _)%bool; [|reflexivity]);
    destruct (add_mat_rows nr' n 0 d (a_rows a)), (add_mat_rows nr' n 0 d' (a_rows a')); cbn in K |- *; try contradiction; try exact K;
    (split; [reflexivity|split; [split; [reflexivity|exact H2w]|exact K]]).
Qed.

(* ---------------- learning ---------------- *)
Definition val (c : cell) : f64 := match c with CI z => Z2f z | CF x => x | CS _ => fnan end.
Lemma cell_num_val c : numeric c -> cell_num c = Ok (val c).
Proof. destruct c; cbn; intros H; [reflexivity|reflexivity|discriminate H]. Qed.
Definition vcol (a : arr) (j : nat) : list f64 := map (fun r => val (nth j r (CF fnan))) (a_rows a).

Lemma rows_left l l' : Forall2 Rr l l' -> Forall (fun r => List.length r = n /\ Forall numeric r) l.
Proof. induction 1 as [|r r' l l' (H1 & H2 & _) H IH]; constructor; auto. Qed.
Lemma rows_right l l' : Forall2 Rr l l' -> Forall (fun r => List.length r = n /\ Forall numeric r) l'.
Proof.
  induction 1 as [|r r' l l' (H1 & H2 & ->) H IH]; constructor; auto. split; [apply sel_len|apply sel_Forall; assumption].
Qed.
Lemma num_col_at a i : a_nc a = n -> Forall (fun r => List.length r = n /\ Forall numeric r) (a_rows a) -> i < n ->
  num_col a i = Ok (vcol a i).
Proof.
  intros Hn H Hi. unfold num_col. rewrite Hn. destruct (Nat.ltb_spec i n) as [_|]; [|lia].
  apply (rmapM_all (fun r => cell_num (nth i r (CF fnan))) (fun r => val (nth i r (CF fnan)))).
  eapply Forall_impl; [|exact H]. intros r [L F]. apply cell_num_val.
  rewrite Forall_forall in F. apply F, nth_In. lia.
Qed.
Lemma vcol_rel a a' k : Ra a a' -> k < n -> vcol a' k = vcol a (nth k sigma 0).
Proof.
  intros (_ & _ & H) Hk. unfold vcol. induction H as [|r r' l l' (H1 & H2 & ->) H IH]; cbn [map]; [reflexivity|].
  rewrite IH, sel_nth by exact Hk. reflexivity.
Qed.
Lemma num_col_left a a' i : Ra a a' -> i < n -> num_col a i = Ok (vcol a i).
Proof. intros (_ & (_ & H2) & H3). apply num_col_at; [exact H2|exact (rows_left _ _ H3)]. Qed.
Lemma num_col_right a a' k : Ra a a' -> k < n -> num_col a' k = Ok (vcol a (nth k sigma 0)).
Proof.
  intros H Hk. rewrite <- (vcol_rel a a' k H Hk). destruct H as (_ & (H1 & H2) & H3). apply num_col_at; [unfold wid in H2; congruence|exact (rows_right _ _ H3)|exact Hk].
Qed.

Lemma learn_tab {T} (upd : nat -> res (T * T)) (u : nat -> T * T) pm : forall i,
  (forall k, k < List.length pm -> upd (i + k) = Ok (u (i + k))) ->
  learn_from upd i pm = (Ok tt, map u (seq i (List.length pm))).
Proof.
  induction pm as [|p pm IH]; intros i H; cbn [learn_from List.length seq map]; [reflexivity|].
  pose proof (H 0 ltac:(cbn; lia)) as H0. rewrite Nat.add_0_r in H0. rewrite H0, IH; [reflexivity|].
  intros k Hk. specialize (H (S k) ltac:(cbn; lia)). replace (i + S k) with (S i + k) in H by lia. exact H.
Qed.
Lemma learn_both {T} (upd upd' : nat -> res (T * T)) (u : nat -> T * T) (d : T * T) pm pm' :
  List.length pm = n -> List.length pm' = n ->
  (forall k, k < n -> upd k = Ok (u k)) -> (forall k, k < n -> upd' k = Ok (u (nth k sigma 0))) ->
  learn_from upd 0 pm = (Ok tt, tabulate n u) /\ learn_from upd' 0 pm' = (Ok tt, sel d (tabulate n u)).
Proof.
  intros L L' H H'. rewrite (learn_tab upd u pm 0) by (intros k Hk; rewrite L in Hk; apply H, Hk).
  rewrite (learn_tab upd' (fun k => u (nth k sigma 0)) pm' 0) by (intros k Hk; rewrite L' in Hk; apply H', Hk).
  rewrite L, L'. split; [reflexivity|]. f_equal. exact (sel_tabulate d u (fun k => u (nth k sigma 0)) (fun _ _ => eq_refl)).
Qed.

Definition pair0 : f64 * f64 := (fnan, fnan).
Lemma unigauss_both o lo a a' pm : Ra a a' -> List.length pm = n ->
  exists q, List.length q = n /\ unigauss_learn o lo (num_col a) pm = (Ok tt, q) /\
            unigauss_learn o lo (num_col a') (sel pair0 pm) = (Ok tt, sel pair0 q).
Proof.
  intros Ha L. set (u := fun k => (mean o (vcol a k), raise_to o lo (std o (vcol a k)))).
  exists (tabulate n u). split; [apply tabulate_length|]. unfold unigauss_learn.
  apply learn_both; [exact L|apply sel_len| |]; intros k Hk; unfold unigauss_upd.
  - rewrite (num_col_left a a' k Ha Hk). reflexivity.
  - rewrite (num_col_right a a' k Ha Hk). reflexivity.
Qed.
Lemma adapt_both o lo al a a' pm : Ra a a' -> List.length pm = n ->
  exists r q, List.length q = n /\ adapt_learn o lo al (num_col a) pm = (r, q) /\
              adapt_learn o lo al (num_col a') (sel pair0 pm) = (r, sel pair0 q).
Proof.
  intros Ha L. unfold adapt_learn.
  destruct (a_rows a) as [|r1 [|r2 rs]] eqn:E.
  1,2: destruct (Nat.eq_dec n 0) as [Z|Z];
    [exists (Ok tt), []; split; [cbn; lia|]; destruct pm as [|p pm]; [|cbn in L; lia];
     pose proof (sel_len pair0 (@nil (f64 * f64))) as L'; destruct (sel pair0 []); [split; reflexivity|cbn in L'; lia]
    |exists (Raise IndexError), pm; split; [exact L|];
     pose proof (sel_len pair0 pm) as L'; destruct pm as [|p pm]; [cbn in L; lia|];
     destruct (sel pair0 (p :: pm)) as [|p' pm'] eqn:S; [cbn in L'; lia|]; cbn [learn_from]; unfold adapt_upd;
     rewrite (num_col_left a a' 0 Ha), (num_col_right a a' 0 Ha) by lia; cbn [rbind]; unfold vcol; rewrite E; cbn [map]; split; reflexivity].
  set (u := fun k => let x := vcol a k in
      (o_add o (o_mul o (o_sub o (o_ofZ o 1) al) (mean o x))
               (o_mul o al (o_sub o (o_add o (nth 0 x fnan) (nth 1 x fnan)) (last x (nth 0 x fnan)))), raise_to o lo (std o x))).
  exists (Ok tt), (tabulate n u). split; [apply tabulate_length|].
  assert (K : forall k, match vcol a k with b1 :: b2 :: _ =>
            Ok (o_add o (o_mul o (o_sub o (o_ofZ o 1) al) (mean o (vcol a k)))
                        (o_mul o al (o_sub o (o_add o b1 b2) (last (vcol a k) b1))), raise_to o lo (std o (vcol a k)))
          | _ => Raise IndexError end = Ok (u k)).
  { intros k. unfold u. unfold vcol. rewrite E. reflexivity. }
  apply learn_both; [exact L|apply sel_len| |]; intros k Hk; unfold adapt_upd.
  - rewrite (num_col_left a a' k Ha Hk). apply K.
  - rewrite (num_col_right a a' k Ha Hk). apply K.
Qed.

(* UniBin *)
Definition cadd (a b : cell) : cell :=
  match a, b with
  | CI x, CI y => CI (x + y)
  | CI x, CF y => CF (fadd (Z2f x) y)
  | CF x, CI y => CF (fadd x (Z2f y))
  | CF x, CF y => CF (fadd x y)
  | _, _ => CS ""
  end.
Lemma row_add_num (a : row) : Forall numeric a -> forall b : row, Forall numeric b -> List.length b = List.length a ->
  exists t, row_add a b = Ok t /\ List.length t = List.length a /\ Forall numeric t /\
    forall k, k < List.length a -> nth k t (CF fnan) = cadd (nth k a (CF fnan)) (nth k b (CF fnan)).
Proof.
  induction 1 as [|x a Hx H IH]; intros b Hb L; destruct Hb as [|y b Hy Hb]; try discriminate L; cbn [row_add].
  - exists []. repeat split; [constructor|]. cbn. lia.
  - destruct (IH b Hb) as (t & E & L1 & F & K); [cbn in L; lia|].
    exists (cadd x y :: t). split; [|split; [cbn; lia|split]].
    + destruct x, y; try discriminate Hx; try discriminate Hy; cbn [cell_add rbind cadd]; rewrite E; reflexivity.
    + constructor; [|exact F]. destruct x, y; try discriminate Hx; try discriminate Hy; reflexivity.
    + intros [|k] Hk; cbn [nth]; [reflexivity|]. apply K. cbn in Hk. lia.
Qed.
Lemma sum_rows_rel (l l' : list row) : Forall2 Rr l l' -> forall acc acc', Rr acc acc' ->
  exists t t', sum_rows acc l = Ok t /\ sum_rows acc' l' = Ok t' /\ Rr t t'.
Proof.
  induction 1 as [|r r' l l' Hr H IH]; intros acc acc' Ha; cbn [sum_rows]; [exists acc, acc'; auto|].
  destruct Hr as (R1 & R2 & ->), Ha as (A1 & A2 & ->).
  destruct (row_add_num acc A2 r R2) as (t & E & L1 & F & K); [lia|].
  destruct (row_add_num (sel (CF fnan) acc) (sel_Forall _ _ _ A1 A2) (sel (CF fnan) r) (sel_Forall _ _ _ R1 R2)) as (t' & E' & L1' & F' & K'); [rewrite !sel_len; reflexivity|].
  rewrite E, E'. cbn [rbind]. apply IH. split; [lia|]. split; [exact F|].
  rewrite sel_len in L1', K'. apply sel_intro; [exact L1'|]. intros k Hk. pose proof (sigma_lt k Hk) as Hk'.
  rewrite K', K by lia. rewrite !sel_nth by exact Hk. reflexivity.
Qed.
Lemma unibin_both a a' lo hi pm : Ra a a' -> List.length pm = n ->
  exists r q, List.length q = n /\ unibin_learn a (mkUB n lo hi pm) = (r, mkUB n lo hi q) /\
              unibin_learn a' (mkUB n lo hi (sel fnan pm)) = (r, mkUB n lo hi (sel fnan q)).
Proof.
  intros Ha L. pose proof Ha as (_ & (H2 & H2w) & H3). unfold wid in H2w. unfold unibin_learn, unibin_probs. cbn [ub_lo ub_hi ub_n].
  assert (Z : Rr (repeat (CI 0%Z) n) (repeat (CI 0%Z) n)).
  { split; [apply repeat_length|]. split; [apply Forall_forall; intros x Hx; apply repeat_spec in Hx; subst x; reflexivity|].
    symmetry. apply sel_const. }
  destruct (sum_rows_rel _ _ H3 _ _ Z) as (t & t' & E & E' & (T1 & T2 & T3)).
  rewrite <- H2, H2w. pose proof (Forall2_length _ _ _ H3) as HL.
  destruct (a_rows a) as [|r rs], (a_rows a') as [|r' rs']; try discriminate HL.
  - exists (Raise ZeroDivisionError), pm. split; [exact L|]. split; reflexivity.
  - rewrite E, E', <- HL. cbn [rbind].
    rewrite (rmapM_all cell_num val t) by (eapply Forall_impl; [|exact T2]; exact cell_num_val).
    rewrite (rmapM_all cell_num val t') by (rewrite T3; eapply Forall_impl; [|apply sel_Forall; [exact T1|exact T2]]; exact cell_num_val).
    cbn [rbind]. subst t'. eexists (Ok tt), _. split; [|split; [reflexivity|]].
    + rewrite !map_length. exact T1.
    + rewrite <- (sel_map val (CF fnan) fnan t T1). rewrite (sel_map _ fnan fnan) by (rewrite map_length; exact T1). reflexivity.
Qed.

(* ---------------- sampling ---------------- *)
Context {W : Type}.
Variables g g' : rng W.
Hypothesis Hg : draws_follow sigma g g'.
Lemma unif_follow r w : snd (g_unif g' r n w) = snd (g_unif g r n w) /\
  forall i k, k < n -> fst (g_unif g' r n w) i k = fst (g_unif g r n w) i (nth k sigma 0).
Proof. pose proof (Hg r w) as [H _]. cbv zeta in H. rewrite sigma_len in H. exact H. Qed.
Lemma gauss_follow r w : snd (g_gauss g' r n w) = snd (g_gauss g r n w) /\
  forall i k, k < n -> fst (g_gauss g' r n w) i k = fst (g_gauss g r n w) i (nth k sigma 0).
Proof. pose proof (Hg r w) as [_ H]. cbv zeta in H. rewrite sigma_len in H. exact H. Qed.

Definition pair_rel {A} (V : A -> A -> Prop) (x y : res A * W) : Prop := res_rel V (fst x) (fst y) /\ snd x = snd y.

Lemma normal_both loc scale size w : List.length loc = n -> List.length scale = n ->
  pair_rel Ra (np_normal g loc scale size n w) (np_normal g' (sel fnan loc) (sel fnan scale) size n w).
Proof.
  intros L1 L2. unfold np_normal. rewrite !sel_len, L1, L2, (existsb_perm neg_signed _ _ (sel_perm fnan scale L2)).
  destruct (existsb neg_signed scale); [split; reflexivity|]. destruct (size <? 0)%Z; [split; reflexivity|].
  destruct (negb _); [split; reflexivity|].
  destruct (gauss_follow (Z.to_nat size) w) as [G1 G2].
  destruct (g_gauss g (Z.to_nat size) n w) as [z w1], (g_gauss g' (Z.to_nat size) n w) as [z' w2]. cbn [fst snd] in *.
  split; [|cbn; congruence]. cbn [fst res_rel]. apply float_arr_rel. intros i k Hk. pose proof (sigma_lt k Hk) as Hk'.
  rewrite !bidx_lt by assumption. rewrite !sel_nth by exact Hk. rewrite G2 by exact Hk. reflexivity.
Qed.
Lemma bound_len_reorder b : bound_len (reorder_bound sigma b) = bound_len b.
Proof. destruct b; try reflexivity. apply reorder_len. Qed.
Lemma bound_at_reorder b k : broadcasts (bound_len b) n = true -> k < n ->
  bound_at (reorder_bound sigma b) k = bound_at b (nth k sigma 0).
Proof.
  intros H Hk. destruct b as [|p|t l]; try reflexivity. cbn [reorder_bound bound_at bound_len] in *. rewrite reorder_len.
  pose proof (sigma_lt k Hk) as Hk'. unfold broadcasts in H. destruct (Nat.eqb_spec (List.length l) n) as [E|E].
  - rewrite reorder_sel, E by exact E. rewrite !bidx_lt by assumption. apply sel_nth, Hk.
  - cbn [orb] in H. unfold reorder. rewrite sigma_len. destruct (Nat.eqb_spec (List.length l) n) as [|_]; [contradiction|].
    unfold bidx. rewrite H. reflexivity.
Qed.
Lemma bound_same b : bound_len b <> n -> reorder_bound sigma b = b.
Proof.
  destruct b as [|p|t l]; try reflexivity. cbn. intros H. unfold reorder. rewrite sigma_len.
  destruct (Nat.eqb_spec (List.length l) n) as [E|E]; [contradiction|reflexivity].
Qed.
Lemma bound_none b : n <= 1 -> reorder_bound sigma b = b.
Proof.
  intros Z. pose proof sigma_len as L. pose proof sigma_in as I. destruct b as [|p|t l]; try reflexivity. cbn. unfold reorder.
  destruct sigma as [|j s]; [destruct l; reflexivity|]. cbn [List.length] in *. destruct s as [|j' s]; [|cbn in L; lia].
  assert (Hj : j < n) by (apply I; left; reflexivity).
  destruct (Nat.eqb_spec (List.length l) 1) as [D|D]; [|cbn; destruct (Nat.eqb_spec (List.length l) 1); [contradiction|reflexivity]].
  destruct l as [|x [|y l]]; try discriminate D. cbn. replace j with 0 by (cbn in L; lia). reflexivity.
Qed.
Lemma spread lo hi : bres (bound_len lo) (bound_len hi) <> None ->
  forallb (fun j => isfin (fsub (bound_at (reorder_bound sigma hi) j) (bound_at (reorder_bound sigma lo) j))) (seq 0 (Nat.max (bound_len lo) (bound_len hi)))
  = forallb (fun j => isfin (fsub (bound_at hi j) (bound_at lo j))) (seq 0 (Nat.max (bound_len lo) (bound_len hi))).
Proof.
  intros H. destruct (Nat.le_gt_cases n 1) as [Zn|Zn]; [rewrite !bound_none by exact Zn; reflexivity|].
  assert (D : (bound_len lo <> n /\ bound_len hi <> n) \/
    (Nat.max (bound_len lo) (bound_len hi) = n /\ broadcasts (bound_len lo) n = true /\ broadcasts (bound_len hi) n = true)).
  { unfold bres in H. unfold broadcasts.
    destruct (Nat.eqb_spec (bound_len lo) (bound_len hi)), (Nat.eqb_spec (bound_len lo) 1), (Nat.eqb_spec (bound_len hi) 1),
      (Nat.eqb_spec (bound_len lo) n), (Nat.eqb_spec (bound_len hi) n); try congruence; try (left; split; assumption); right; repeat split; first [reflexivity | lia | exfalso; lia]. }
  destruct D as [[Dl Dh]|(M & Bl & Bh)]; [rewrite !bound_same by assumption; reflexivity|].
  rewrite M. set (p := fun j => isfin (fsub (bound_at hi j) (bound_at lo j))).
  transitivity (forallb p sigma); [|apply forallb_perm, Hs].
  transitivity (forallb p (map (fun k => nth k sigma 0) (seq 0 n))).
  - assert (K : forall l, (forall k, In k l -> k < n) ->
      forallb (fun j => isfin (fsub (bound_at (reorder_bound sigma hi) j) (bound_at (reorder_bound sigma lo) j))) l
      = forallb p (map (fun k => nth k sigma 0) l)).
    { induction l as [|k l IH]; intros Hl; cbn [forallb map]; [reflexivity|].
      rewrite IH by (intros k' Hk'; apply Hl; right; exact Hk'). f_equal. unfold p.
      rewrite !bound_at_reorder by (try assumption; apply Hl; left; reflexivity). reflexivity. }
    apply K. intros k Hk. apply in_seq in Hk. lia.
  - f_equal. apply (list_ext 0); [rewrite map_length, seq_length, sigma_len; reflexivity|].
    intros k Hk. rewrite map_length, seq_length in Hk. exact (nth_tabulate n (fun k => nth k sigma 0) k 0 Hk).
Qed.
Lemma uniform_both lo hi size w :
  pair_rel Ra (np_uniform g lo hi size n w) (np_uniform g' (reorder_bound sigma lo) (reorder_bound sigma hi) size n w).
Proof.
  assert (Main : pair_rel Ra
    (if negb (forallb (fun j => isfin (fsub (bound_at hi j) (bound_at lo j))) (seq 0 (Nat.max (bound_len lo) (bound_len hi)))) then (Raise OverflowError, w)
      else if (size <? 0)%Z then (Raise ValueError, w)
      else if negb (broadcasts (bound_len lo) n && broadcasts (bound_len hi) n) then (Raise ValueError, w)
      else
        let (u, w') := g_unif g (Z.to_nat size) n w in
        (Ok (float_arr (Z.to_nat size) n (fun i j => fadd (bound_at lo j) (fmul (fsub (bound_at hi j) (bound_at lo j)) (u i j)))), w'))
    (if negb (forallb (fun j => isfin (fsub (bound_at (reorder_bound sigma hi) j) (bound_at (reorder_bound sigma lo) j)))
               (seq 0 (Nat.max (bound_len (reorder_bound sigma lo)) (bound_len (reorder_bound sigma hi))))) then (Raise OverflowError, w)
      else if (size <? 0)%Z then (Raise ValueError, w)
      else if negb (broadcasts (bound_len (reorder_bound sigma lo)) n && broadcasts (bound_len (reorder_bound sigma hi)) n) then (Raise ValueError, w)
      else
        let (u, w') := g_unif g' (Z.to_nat size) n w in
        (Ok (float_arr (Z.to_nat size) n (fun i j => fadd (bound_at (reorder_bound sigma lo) j)
           (fmul (fsub (bound_at (reorder_bound sigma hi) j) (bound_at (reorder_bound sigma lo) j)) (u i j)))), w'))
    \/ bres (bound_len lo) (bound_len hi) = None).
  { destruct (bres (bound_len lo) (bound_len hi)) eqn:B; [left|right; reflexivity].
    rewrite !bound_len_reorder, spread by congruence. destruct (negb (forallb _ _)); [split; reflexivity|].
    destruct (size <? 0)%Z; [split; reflexivity|].
    destruct (broadcasts (bound_len lo) n) eqn:Bl; [|split; reflexivity]. destruct (broadcasts (bound_len hi) n) eqn:Bh; [|split; reflexivity].
    cbn [andb negb].
    destruct (unif_follow (Z.to_nat size) w) as [G1 G2].
    destruct (g_unif g (Z.to_nat size) n w) as [z w1], (g_unif g' (Z.to_nat size) n w) as [z' w2]. cbn [fst snd] in *.
    split; [|cbn; congruence]. cbn [fst res_rel]. apply float_arr_rel. intros i k Hk.
    rewrite !bound_at_reorder by assumption. rewrite G2 by exact Hk. reflexivity. }
  destruct Main as [Main|B].
  - unfold np_uniform. destruct lo as [|p|t l], hi as [|p'|t' l']; try (split; reflexivity); cbn [reorder_bound] in *;
      try exact Main; cbn [bound_len] in *; rewrite ?reorder_len in *;
      match goal with |- context [match bres ?a ?b with _ => _ end] => destruct (bres a b); [exact Main|split; reflexivity] end.
  - unfold np_uniform. destruct lo as [|p|t l], hi as [|p'|t' l']; try (split; reflexivity); cbn [reorder_bound] in *;
      cbn [bound_len] in *; try discriminate B; rewrite ?reorder_len, B; split; reflexivity.
Qed.
Lemma unibin_draw lo hi pm size w : List.length pm = n ->
  pair_rel Ra (unibin_sample g (mkUB n lo hi pm) size w) (unibin_sample g' (mkUB n lo hi (sel fnan pm)) size w).
Proof.
  intros L. unfold unibin_sample. cbn [ub_n ub_pm]. destruct (size <? 0)%Z; [split; reflexivity|]. rewrite sel_len, L.
  unfold bres. rewrite Nat.eqb_refl.
  destruct (unif_follow (Z.to_nat size) w) as [G1 G2].
  destruct (g_unif g (Z.to_nat size) n w) as [z w1], (g_unif g' (Z.to_nat size) n w) as [z' w2]. cbn [fst snd] in *.
  split; [|cbn; congruence]. cbn [fst res_rel]. split; [reflexivity|]. split; [split; reflexivity|]. cbn [a_rows].
  apply (rows_tabulate (Z.to_nat size) (fun i j => CI (if flt (z i (bidx n j)) (nth (bidx n j) pm fnan) then 1 else 0)%Z)
           (fun i j => CI (if flt (z' i (bidx n j)) (nth (bidx n j) (sel fnan pm) fnan) then 1 else 0)%Z)); [reflexivity|].
  intros i k Hk. pose proof (sigma_lt k Hk) as Hk'. rewrite !bidx_lt by assumption. rewrite sel_nth, G2 by exact Hk. reflexivity.
Qed.
Lemma gauss_draw pm size w : List.length pm = n ->
  pair_rel Ra (gauss_sample g pm size w) (gauss_sample g' (sel pair0 pm) size w).
Proof.
  intros L. unfold gauss_sample. rewrite sel_len, L. rewrite <- !(sel_map _ pair0 fnan pm L).
  apply normal_both; rewrite map_length; exact L.
Qed.

End Perm.
