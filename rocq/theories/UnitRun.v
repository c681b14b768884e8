(** UMDAc and PBIL with every variable measured in another unit, a power of two times the old one. *)
From Coq Require Import String List ZArith Bool Lia Reals.
From Flocq Require Import Core IEEE754.BinarySingleNaN.
From Verif Require Import PyBase B64 B64More NdArray Eda EdaInv Rand Models Inits Stock Spec LoopObs LoopRel OrderRel LoopMap LoopKeep VarOrder KeepRun InitGauss Scale Guard UnitFloat UnitStat.
Import ListNotations.
Open Scope nat_scope.

(** A number of an individual in the new unit. *)
Definition scaled_cell (e : Z) (c : cell) : cell := match c with CF x => CF (scaled e x) | _ => c end.
(** An individual in the new unit. *)
Definition scaled_row (e : Z) : row -> row := map (scaled_cell e).
Definition scaled_bound (e : Z) (b : bound) : bound :=
  match b with BNone => BNone | BNum p => BNum (PyF (scaled e (num_to_f p))) | BList t l => BList t (map (scaled e) l) end.
(** The arguments of the optimiser that works in the new unit. *)
Definition unit_args (e : Z) (a : args) : args :=
  mkArgs (g_size_gen a) (g_max_iter a) (g_dead_iter a) (g_nvars a) (g_alpha a) (g_elite_factor a) (g_disp a) (g_parallelize a)
         (option_map (fun d => mkArr (a_dt d) (a_nc d) (map (scaled_row e) (a_rows d))) (g_init_data a)).

Definition moderate_cell (c : cell) : bool := match c with CF x => moderate x | _ => false end.
(** A matrix of floats, each zero or of magnitude between [2^-100] and [2^100]. *)
Definition moderate_rows (d : arr) : bool := forallb (forallb moderate_cell) (a_rows d).
Definition moderate_bound (b : bound) : bool :=
  match b with BNone => true | BNum p => moderate (num_to_f p) | BList _ l => forallb moderate l end.
(** At least one individual, and not more than [2^40]. *)
Definition some_rows (d : arr) : bool := match a_rows d with [] => false | _ => (Z.of_nat (List.length (a_rows d)) <=? 2 ^ 40)%Z end.
(** A data set of that many rows of such numbers. *)
Definition usual (d : arr) : bool := some_rows d && moderate_rows d.
(** Every generation evaluated consists of such numbers, and so does every data set learnt, which is
    not empty. *)
Definition ordinary (tr : list ev) : Prop := Forall (passes moderate_rows usual) tr.

Section Unit.
Variables (n : nat) (e : Z).
Hypothesis He : (-50 <= e <= 50)%Z.
Local Notation sc := (scaled e).

Lemma scaled_fnan : sc fnan = fnan.
Proof. unfold scaled. destruct (lit 1 e); reflexivity. Qed.

Definition Ru (r r' : row) : Prop := List.length r = n /\ forallb moderate_cell r = true /\ r' = scaled_row e r.
Definition wu (x x' : nat) : Prop := x = n /\ x' = n.
Local Notation Ra := (arr_keep Ru wu).

Lemma Ru_cast d r r' : Ru r r' -> Ru (map (cast_cell d) r) (map (cast_cell d) r').
Proof.
  intros (H1 & H2 & ->).
  assert (E : forall l, forallb moderate_cell l = true -> map (cast_cell d) l = l /\ map (cast_cell d) (scaled_row e l) = scaled_row e l).
  { induction l as [|c l IH]; [split; reflexivity|]. change (scaled_row e (c :: l)) with (scaled_cell e c :: scaled_row e l).
    cbn [forallb map]. intros H. apply andb_true_iff in H. destruct H as [Hc Hl].
    destruct (IH Hl) as [I1 I2]. destruct c; try discriminate Hc. rewrite I1, I2. destruct d; split; reflexivity. }
  destruct (E r H2) as [E1 E2]. rewrite E1, E2. split; [exact H1|]. split; [exact H2|reflexivity].
Qed.
Lemma Ru_fun r r' : Ru r r' -> r' = scaled_row e r. Proof. intros (_ & _ & H). exact H. Qed.

Lemma float_arr_unit k0 f f' : (forall i j, j < n -> f' i j = sc (f i j)) -> moderate_rows (float_arr k0 n f) = true ->
  Ra (float_arr k0 n f) (float_arr k0 n f').
Proof.
  intros H P. split; [reflexivity|]. split; [split; reflexivity|]. cbn [float_arr a_rows].
  unfold moderate_rows in P. cbn [float_arr a_rows] in P. unfold tabulate at 1 in P. unfold tabulate at 1 3.
  induction (seq 0 k0) as [|i l IH]; cbn [map forallb] in *; constructor.
  - apply andb_true_iff in P. destruct P as [P _]. split; [apply tabulate_length|]. split; [exact P|].
    unfold scaled_row, tabulate. rewrite map_map. apply map_ext_in. intros j Hj. apply in_seq in Hj. cbn [scaled_cell]. rewrite H by lia. reflexivity.
  - apply IH. apply andb_true_iff in P. apply P.
Qed.
Definition draw_unit {W} (x y : res arr * W) : Prop := res_le (fun a a' => Ra a a' /\ snd x = snd y) (fst x) (fst y).

(* ---------------- noise ---------------- *)
(** No noise, or noise in the new unit. *)
Definition Rnu (x x' : noise) : Prop :=
  match x, x' with
  | NoiseZero, NoiseZero => True
  | NoiseMat nr nc d, NoiseMat nr' nc' d' => nr' = nr /\ nc = n /\ nc' = n /\ forall i j, grid 306 201 (d i j) /\ d' i j = sc (d i j)
  | _, _ => False
  end.
(** The same individuals in the new unit, of any size. *)
Definition Rwu (a a' : arr) : Prop :=
  a_dt a = a_dt a' /\ wu (a_nc a) (a_nc a') /\ Forall2 (fun r r' => List.length r = n /\ r' = scaled_row e r) (a_rows a) (a_rows a').
Lemma Ra_Rw a a' : Ra a a' -> Rwu a a'.
Proof.
  intros (H1 & H2 & H3). split; [exact H1|]. split; [exact H2|]. induction H3 as [|r r' l l' (R1 & _ & R2) H3 IH]; constructor; [split; assumption|exact IH].
Qed.
Lemma Rw_Ra a a' : Rwu a a' -> moderate_rows a = true -> Ra a a'.
Proof.
  intros (H1 & H2 & H3) M. split; [exact H1|]. split; [exact H2|]. unfold moderate_rows in M.
  induction H3 as [|r r' l l' (R1 & R2) H3 IH]; cbn [forallb] in M; constructor; apply andb_true_iff in M; [split; [exact R1|split; [apply M|exact R2]]|apply IH, M].
Qed.
Lemma noise_cells (d d' : nat -> nat -> f64) i : (forall i j, grid 306 201 (d i j) /\ d' i j = sc (d i j)) ->
  forall r k, forallb moderate_cell r = true ->
  exists t, add_mat_cells n i k d r = Ok t /\ List.length t = List.length r /\ add_mat_cells n i k d' (scaled_row e r) = Ok (scaled_row e t).
Proof.
  intros Hd. induction r as [|c r IH]; intros k H; [exists []; repeat split|]. cbn [forallb] in H. apply andb_true_iff in H. destruct H as [Hc Hr].
  destruct (IH (S k) Hr) as (t & E1 & L & E2). destruct c as [z|x|x]; try discriminate Hc. cbn [moderate_cell] in Hc.
  destruct (Hd i (bidx n k)) as [Gd Ed].
  assert (P : fadd (sc x) (sc (d i (bidx n k))) = sc (fadd x (d i (bidx n k)))).
  { apply (scaled_add e ltac:(lia) 306 201); [lia|lia| |exact Gd]. apply (grid_up 203 150); [lia|lia|apply moderate_wide, Hc]. }
  exists (CF (fadd x (d i (bidx n k))) :: t). change (scaled_row e (CF x :: r)) with (CF (scaled e x) :: scaled_row e r).
  cbn [add_mat_cells add_cell rbind]. rewrite E1, E2, Ed, P. cbn [rbind].
  split; [reflexivity|]. split; [cbn [List.length]; rewrite L; reflexivity|]. reflexivity.
Qed.
Lemma noise_rows nr (d d' : nat -> nat -> f64) : (forall i j, grid 306 201 (d i j) /\ d' i j = sc (d i j)) ->
  forall l l', Forall2 Ru l l' -> forall i, exists q q', add_mat_rows nr n i d l = Ok q /\ add_mat_rows nr n i d' l' = Ok q' /\
    Forall2 (fun r r' => List.length r = n /\ r' = scaled_row e r) q q'.
Proof.
  intros Hd l l' H. induction H as [|r r' l l' (R1 & R2 & ->) Hl IH]; intros i; [exists [], []; repeat split; constructor|].
  destruct (IH (S i)) as (q & q' & E & E' & Hq). destruct (noise_cells d d' (bidx nr i) Hd r 0 R2) as (t & T1 & TL & T2).
  exists (t :: q), (scaled_row e t :: q'). cbn [add_mat_rows]. rewrite T1, T2. cbn [rbind]. rewrite E, E'. cbn [rbind].
  split; [reflexivity|]. split; [reflexivity|]. constructor; [|exact Hq]. split; [lia|reflexivity].
Qed.
Lemma noise_unit s z : moderate s = true -> moderate z = true ->
  grid 306 201 (fadd (Z2f 0) (fmul s z)) /\ fadd (Z2f 0) (fmul (sc s) z) = sc (fadd (Z2f 0) (fmul s z)).
Proof.
  intros Ms Mz. assert (Gp : grid 306 200 (fmul s z)) by (apply (grid_mul 153 100 153 100); [lia|lia|apply moderate_grid, Ms|apply moderate_grid, Mz]).
  pose proof (fun k u => grid_zero k u (Z2f 0) Z2f_0_fin Z2f_0_R) as G0. split.
  - apply (grid_add 306 200); [lia|lia|apply G0|exact Gp].
  - rewrite <- (scaled_zero e ltac:(lia) (Z2f 0) Z2f_0_fin Z2f_0_R) at 1. apply normal_scaled; [exact He|apply G0| |apply moderate_grid, Mz].
    apply (grid_up 153 100); [lia|lia|apply moderate_grid, Ms].
Qed.
Lemma moderate_same (x y : f64) : isfin x = true -> isfin y = true -> B2R x = B2R y -> moderate x = true -> moderate y = true.
Proof.
  intros Fx Fy E. unfold moderate. destruct (fabs_R x Fx) as [Fax Eax]. destruct (fabs_R y Fy) as [Fay Eay].
  destruct (pow_lit 100 ltac:(lia)) as [_ F1]. destruct (pow_lit (-100) ltac:(lia)) as [_ F2].
  replace (feq y (Z2f 0)) with (feq x (Z2f 0)).
  - replace (fle (lit 1 (-100)) (fabs y)) with (fle (lit 1 (-100)) (fabs x)).
    + replace (fle (fabs y) (lit 1 100)) with (fle (fabs x) (lit 1 100)); [auto|].
      apply bool_iff. rewrite !fle_fin by assumption. rewrite Eax, Eay, E. reflexivity.
    + apply bool_iff. rewrite !fle_fin by assumption. rewrite Eax, Eay, E. reflexivity.
  - apply bool_iff. rewrite !feq_fin by (try assumption; apply Z2f_0_fin). rewrite E. reflexivity.
Qed.
Lemma plus_zero x : moderate x = true -> moderate (fadd x (Z2f 0)) = true /\ fadd (sc x) (Z2f 0) = sc (fadd x (Z2f 0)).
Proof.
  intros M. pose proof (moderate_wide x M) as G. pose proof (grid_zero 203 150 (Z2f 0) Z2f_0_fin Z2f_0_R) as G0.
  pose proof G as (F & _ & _). assert (X : (B2R x + B2R (Z2f 0))%R = B2R x) by (rewrite Z2f_0_R; ring).
  assert (B : (Rabs (rnd (B2R x + B2R (Z2f 0))) < big)%R).
  { rewrite X. apply (rnd_small _ 150); [lia|apply G]. }
  destruct (add_all x (Z2f 0) F Z2f_0_fin B) as (Fs & Es & _). rewrite X, rnd_B2R in Es. split.
  - apply (moderate_same x); [exact F|exact Fs|symmetry; exact Es|exact M].
  - rewrite <- (scaled_zero e ltac:(lia) (Z2f 0) Z2f_0_fin Z2f_0_R) at 1. apply (scaled_add e ltac:(lia) 203 150); [lia|lia|exact G|exact G0].
Qed.
Lemma zero_cells r : forallb moderate_cell r = true ->
  exists t, rmapM add_zero_cell r = Ok t /\ List.length t = List.length r /\ forallb moderate_cell t = true /\
            rmapM add_zero_cell (scaled_row e r) = Ok (scaled_row e t).
Proof.
  induction r as [|c r IH]; intros H; [exists []; repeat split|]. cbn [forallb] in H. apply andb_true_iff in H. destruct H as [Hc Hr].
  destruct (IH Hr) as (t & E1 & L & M & E2). destruct c as [z|x|x]; try discriminate Hc. cbn [moderate_cell] in Hc. destruct (plus_zero x Hc) as [P1 P2].
  exists (CF (fadd x (Z2f 0)) :: t). change (scaled_row e (CF x :: r)) with (CF (scaled e x) :: scaled_row e r).
  cbn [rmapM add_zero_cell rbind]. rewrite E1, E2, P2. cbn [rbind].
  split; [reflexivity|]. split; [cbn [List.length]; rewrite L; reflexivity|]. split; [|reflexivity]. cbn [forallb moderate_cell]. rewrite P1, M. reflexivity.
Qed.
Lemma iadd_unit a a' x x' : Ra a a' -> Rnu x x' -> res_le Rwu (iadd a x) (iadd a' x').
Proof.
  intros (H1 & (H2 & H2w) & H3) Hx. destruct x as [| |nr nc d], x' as [| |nr' nc' d']; try contradiction; unfold iadd; rewrite <- H1, H2, H2w.
  - assert (K : exists l l', rmapM (rmapM add_zero_cell) (a_rows a) = Ok l /\ rmapM (rmapM add_zero_cell) (a_rows a') = Ok l' /\
        Forall2 (fun r r' => List.length r = n /\ r' = scaled_row e r) l l').
    { induction H3 as [|r r' l l' (R1 & R2 & ->) Hl IH]; [exists [], []; repeat split; constructor|].
      destruct IH as (q & q' & E & E' & Hq). destruct (zero_cells r R2) as (t & T1 & TL & TM & T2). exists (t :: q), (scaled_row e t :: q').
      cbn [rmapM]. rewrite T1, T2. cbn [rbind]. rewrite E, E'. cbn [rbind]. split; [reflexivity|]. split; [reflexivity|]. constructor; [|exact Hq].
      split; [lia|reflexivity]. }
    destruct K as (l & l' & -> & -> & Hl). cbn. split; [reflexivity|]. split; [split; reflexivity|exact Hl].
  - destruct Hx as (-> & -> & -> & Hd). unfold a_len.
    assert (HL : List.length (a_rows a') = List.length (a_rows a)) by (clear - H3; induction H3; cbn [List.length]; congruence). rewrite HL.
    destruct (noise_rows nr d d' Hd (a_rows a) (a_rows a') H3 0) as (q & q' & E & E' & Hq). rewrite E, E'.
    destruct (a_dt a); try exact I; (destruct (broadcasts nr _ && broadcasts n n); [|exact I]); cbn; (split; [reflexivity|]; split; [split; reflexivity|exact Hq]).
Qed.

(* ---------------- learning ---------------- *)
Definition pair_scaled (p : f64 * f64) : f64 * f64 := (sc (fst p), sc (snd p)).
Definition mid_pair (p : f64 * f64) : Prop := mid (fst p) /\ mid (snd p).
Lemma moderate_numeric r : forallb moderate_cell r = true -> Forall numeric r.
Proof. induction r as [|c r IH]; cbn; intros H; [constructor|]. apply andb_true_iff in H. constructor; [destruct c; [discriminate (proj1 H)|reflexivity|discriminate (proj1 H)]|apply IH, H]. Qed.
Lemma scaled_numeric r : Forall numeric r -> Forall numeric (scaled_row e r).
Proof. intros H. apply Forall_map. eapply Forall_impl; [|exact H]. intros [| |]; cbn; auto. Qed.
Lemma cols_unit a a' k : Ra a a' -> k < n ->
  num_col a k = Ok (vcol a k) /\ num_col a' k = Ok (map sc (vcol a k)) /\ Forall (grid 203 150) (vcol a k).
Proof.
  intros (_ & (N & N') & H) Hk. split; [|split].
  - apply (num_col_at n a k N); [|exact Hk]. clear - H. induction H as [|r r' l l' (R1 & R2 & _) Hl IH]; constructor; auto.
    split; [exact R1|apply moderate_numeric, R2].
  - replace (map sc (vcol a k)) with (vcol a' k).
    + apply (num_col_at n a' k N'); [|exact Hk]. clear - H. induction H as [|r r' l l' (R1 & R2 & ->) Hl IH]; constructor; auto.
      split; [unfold scaled_row; rewrite map_length; exact R1|apply scaled_numeric, moderate_numeric, R2].
    + unfold vcol. clear - H Hk. induction H as [|r r' l l' (R1 & R2 & ->) Hl IH]; cbn [map]; [reflexivity|]. rewrite IH. f_equal.
      unfold scaled_row. rewrite (nth_indep _ (CF fnan) (scaled_cell e (CF fnan))) by (rewrite map_length; lia). rewrite map_nth.
      rewrite forallb_forall in R2. assert (Hi : k < List.length r) by lia. specialize (R2 (nth k r (CF fnan)) (nth_In r (CF fnan) Hi)).
      destruct (nth k r (CF fnan)); try discriminate R2; reflexivity.
  - unfold vcol. clear - H Hk. induction H as [|r r' l l' (R1 & R2 & _) Hl IH]; cbn [map]; constructor; [|exact IH].
    rewrite forallb_forall in R2. assert (Hi : k < List.length r) by lia. specialize (R2 (nth k r (CF fnan)) (nth_In r (CF fnan) Hi)).
    destruct (nth k r (CF fnan)); try discriminate R2. apply moderate_wide, R2.
Qed.
Lemma some_col a k : some_rows a = true -> vcol a k <> [] /\ (Z.of_nat (List.length (vcol a k)) <= 2 ^ 40)%Z.
Proof.
  unfold some_rows, vcol. rewrite map_length. intros H. destruct (a_rows a) as [|r l]; [discriminate|]. apply Z.leb_le in H. split; [discriminate|exact H].
Qed.
Lemma learn_unit (upd upd' : nat -> res (f64 * f64)) (u u' : nat -> f64 * f64) pm pm' :
  List.length pm = n -> List.length pm' = n ->
  (forall k, k < n -> upd k = Ok (u k) /\ upd' k = Ok (pair_scaled (u k)) /\ mid_pair (u k)) ->
  exists q, List.length q = n /\ Forall mid_pair q /\ learn_from upd 0 pm = (Ok tt, q) /\ learn_from upd' 0 pm' = (Ok tt, map pair_scaled q).
Proof.
  intros L L' H. exists (map u (seq 0 n)). split; [rewrite map_length, seq_length; reflexivity|]. split.
  - apply Forall_map, Forall_forall. intros k Hk. apply in_seq in Hk. apply H. lia.
  - rewrite (learn_tab upd u pm 0) by (intros k Hk; rewrite L in Hk; apply H, Hk).
    rewrite (learn_tab upd' (fun k => pair_scaled (u k)) pm' 0) by (intros k Hk; rewrite L' in Hk; apply H, Hk).
    rewrite L, L', map_map. split; reflexivity.
Qed.
Variable s : list f64 -> f64.
Hypothesis Hs : fixed_order s.
Local Notation o := (b64_ops s).
Lemma unigauss_unit lo a a' pm pm' : Ra a a' -> some_rows a = true -> List.length pm = n -> List.length pm' = n -> moderate lo = true ->
  exists q, List.length q = n /\ Forall mid_pair q /\ unigauss_learn o lo (num_col a) pm = (Ok tt, q) /\
            unigauss_learn o (sc lo) (num_col a') pm' = (Ok tt, map pair_scaled q).
Proof.
  intros Ha Hn L L' Ml. unfold unigauss_learn.
  apply (learn_unit _ _ (fun k => (mean o (vcol a k), raise_to o lo (std o (vcol a k)))) (fun k => pair0)); [exact L|exact L'|].
  intros k Hk. destruct (cols_unit a a' k Ha Hk) as (C1 & C2 & G). destruct (some_col a k Hn) as [N1 N2].
  destruct (mean_scaled s Hs e He (vcol a k) N1 N2 G) as [Gm Em]. destruct (std_scaled s Hs e He (vcol a k) N1 N2 G) as [Gd Ed].
  destruct (raise_scaled s e He (vcol a k) lo (std o (vcol a k)) (moderate_wide lo Ml) Gd) as [Gr Er].
  unfold unigauss_upd. rewrite C1, C2. cbn [rmap]. rewrite Em, Ed, Er. split; [reflexivity|]. split; [reflexivity|]. split; [|exact Gr].
  apply (grid_up 296 190); [lia|lia|exact Gm].
Qed.
Lemma last_grid (x : list f64) d : grid 203 150 d -> Forall (grid 203 150) x -> grid 203 150 (last x d) /\ last (map sc x) (sc d) = sc (last x d).
Proof.
  intros Hd H. induction H as [|a x Ha H IH]; [split; [exact Hd|reflexivity]|]. destruct x as [|b x]; [split; [exact Ha|reflexivity]|]. exact IH.
Qed.
Lemma adapt_unit lo al a a' pm pm' : Ra a a' -> some_rows a = true -> List.length pm = n -> List.length pm' = n -> moderate lo = true -> moderate al = true ->
  fst (adapt_learn o lo al (num_col a) pm) = Ok tt ->
  exists q, List.length q = n /\ Forall mid_pair q /\ adapt_learn o lo al (num_col a) pm = (Ok tt, q) /\
            adapt_learn o (sc lo) al (num_col a') pm' = (Ok tt, map pair_scaled q).
Proof.
  intros Ha Hn L L' Ml Mal Hok. unfold adapt_learn in *.
  assert (Two : n = 0 \/ 2 <= List.length (a_rows a)).
  { destruct (Nat.eq_dec n 0) as [|Hn0]; [left; assumption|right]. destruct pm as [|p pm]; [cbn in L; lia|]. cbn [learn_from] in Hok.
    destruct (cols_unit a a' 0 Ha ltac:(lia)) as (C1 & _ & _). unfold adapt_upd in Hok at 1. rewrite C1 in Hok. cbn [rbind] in Hok.
    unfold vcol in Hok. destruct (a_rows a) as [|r1 [|r2 rs]]; cbn in Hok |- *; try discriminate Hok. lia. }
  apply (learn_unit _ _ (fun k => let x := vcol a k in
      (fadd (fmul (fsub (Z2f 1) al) (mean o x)) (fmul al (fsub (fadd (nth 0 x fnan) (nth 1 x fnan)) (last x (nth 0 x fnan)))), raise_to o lo (std o x))) (fun k => pair0));
    [exact L|exact L'|].
  intros k Hk. destruct Two as [Z|Two]; [lia|]. cbv zeta. destruct (cols_unit a a' k Ha Hk) as (C1 & C2 & G). destruct (some_col a k Hn) as [N1 N2].
  assert (Lc : List.length (vcol a k) = List.length (a_rows a)) by (unfold vcol; apply map_length).
  destruct (std_scaled s Hs e He (vcol a k) N1 N2 G) as [Gd Ed].
  destruct (raise_scaled s e He (vcol a k) lo (std o (vcol a k)) (moderate_wide lo Ml) Gd) as [Gr Er].
  unfold adapt_upd. rewrite C1, C2. cbn [rbind].
  assert (E2 : exists b1 b2 x, vcol a k = b1 :: b2 :: x).
  { destruct (vcol a k) as [|b1 [|b2 x]]; cbn in Lc; try lia. exists b1, b2, x. reflexivity. }
  destruct E2 as (b1 & b2 & x & Ex). 
  assert (Gb1 : grid 203 150 b1) by (rewrite Ex in G; inversion G; assumption).
  assert (Gb2 : grid 203 150 b2) by (rewrite Ex in G; inversion G as [|? ? ? G']; inversion G'; assumption).
  destruct (last_grid (vcol a k) b1 Gb1 G) as [Gl El].
  destruct (moved_scaled s Hs e He (vcol a k) N1 N2 G al b1 b2 (last (vcol a k) b1) (moderate_grid al Mal) Gb1 Gb2 Gl) as [Gv Ev].
  rewrite <- El in Ev. 
  assert (N : nth 0 (vcol a k) fnan = b1 /\ nth 1 (vcol a k) fnan = b2) by (rewrite Ex; split; reflexivity). destruct N as [-> ->].
  split; [|split].
  - rewrite Ex. reflexivity.
  - unfold pair_scaled. cbn [fst snd]. rewrite <- Ev, <- Er, <- Ed. rewrite Ex. reflexivity.
  - split; cbn [fst snd]; [exact Gv|exact Gr].
Qed.

(* ---------------- sampling ---------------- *)
Context {W : Type}.
Variable g : rng W.
Hypothesis Hg : forall r c w i j, moderate (fst (g_unif g r c w) i j) = true /\ moderate (fst (g_gauss g r c w) i j) = true.

Lemma neg_unit l : Forall mid l -> existsb neg_signed (map sc l) = existsb neg_signed l.
Proof.
  induction 1 as [|x l Hx H IH]; cbn [map existsb]; [reflexivity|]. rewrite IH, (grid_sign e ltac:(lia) 450 300) by (try lia; exact Hx). reflexivity.
Qed.
Lemma nth_scaled l j : nth j (map sc l) fnan = sc (nth j l fnan).
Proof. rewrite <- scaled_fnan at 1. apply map_nth. Qed.
Lemma normal_unit loc scale size w : List.length loc = n -> List.length scale = n -> Forall mid loc -> Forall mid scale ->
  draw_unit (guard moderate_rows (np_normal g loc scale size n w)) (np_normal g (map sc loc) (map sc scale) size n w).
Proof.
  intros L1 L2 M1 M2. unfold np_normal. rewrite !map_length, L1, L2, neg_unit by exact M2.
  destruct (existsb neg_signed scale); [exact I|]. destruct (size <? 0)%Z; [exact I|].
  unfold broadcasts. rewrite Nat.eqb_refl. cbn [orb andb negb].
  pose proof (fun i j => proj2 (Hg (Z.to_nat size) n w i j)) as Hz. destruct (g_gauss g (Z.to_nat size) n w) as [z w1]. cbn [fst] in Hz.
  unfold guard. match goal with |- context [if ?b then _ else _] => destruct b eqn:P end; [|exact I]. split; [|reflexivity]. cbn [fst].
  apply float_arr_unit; [|exact P]. intros i j Hj. rewrite !bidx_lt by exact Hj. rewrite !nth_scaled.
  apply (normal_scaled e He); [| |apply moderate_grid, Hz]; rewrite Forall_forall in M1, M2; [apply M1|apply M2]; apply nth_In; lia.
Qed.
Lemma bound_unit b j : bound_at (scaled_bound e b) j = sc (bound_at b j).
Proof. destruct b as [|p|t l]; cbn [scaled_bound bound_at num_to_f]; [symmetry; apply scaled_fnan|reflexivity|]. rewrite map_length. apply nth_scaled. Qed.
Lemma bound_unit_len b : bound_len (scaled_bound e b) = bound_len b.
Proof. destruct b; cbn [scaled_bound bound_len]; try reflexivity. apply map_length. Qed.
Lemma bound_cases b j : moderate_bound b = true -> bound_at b j = fnan \/ grid 203 150 (bound_at b j).
Proof.
  destruct b as [|p|t l]; cbn [moderate_bound bound_at]; intros H; [left; reflexivity|right; apply moderate_wide, H|].
  rewrite forallb_forall in H. set (i := bidx (List.length l) j). destruct (Nat.lt_ge_cases i (List.length l)) as [Hi|Hi].
  - right. apply moderate_wide, H, nth_In, Hi.
  - left. apply nth_overflow, Hi.
Qed.
Lemma sub_nan (x : f64) : fsub x fnan = fnan /\ fsub fnan x = fnan /\ fmul fnan x = fnan /\ fadd x fnan = fnan /\ fadd fnan x = fnan.
Proof. destruct x; repeat split. Qed.
Lemma uniform_cell lo hi z : (lo = fnan \/ grid 203 150 lo) -> (hi = fnan \/ grid 203 150 hi) -> moderate z = true ->
  fadd (sc lo) (fmul (fsub (sc hi) (sc lo)) z) = sc (fadd lo (fmul (fsub hi lo) z)) /\
  (isfin (fsub hi lo) = true -> isfin (fsub (sc hi) (sc lo)) = true).
Proof.
  intros Hl Hh Hz. destruct (sub_nan z) as (_ & _ & Nz & _).
  destruct Hl as [->|Gl].
  - rewrite scaled_fnan. destruct (sub_nan hi) as (S1 & _). destruct (sub_nan (sc hi)) as (S2 & _). rewrite S1, S2, Nz.
    destruct (sub_nan fnan) as (_ & _ & _ & A & _). rewrite A. split; [symmetry; apply scaled_fnan|discriminate].
  - destruct Hh as [->|Gh].
    + rewrite scaled_fnan. destruct (sub_nan lo) as (_ & S1 & _ & A1 & _). destruct (sub_nan (sc lo)) as (_ & S2 & _ & A2 & _). rewrite S1, S2, Nz, A1, A2.
      split; [symmetry; apply scaled_fnan|discriminate].
    + destruct (uniform_scaled e He lo hi z Gl Gh (moderate_grid z Hz)) as (E & _ & F). split; [exact E|intros _; exact F].
Qed.
Lemma uniform_unit lo hi size w : moderate_bound lo = true -> moderate_bound hi = true ->
  draw_unit (guard moderate_rows (np_uniform g lo hi size n w)) (np_uniform g (scaled_bound e lo) (scaled_bound e hi) size n w).
Proof.
  intros Ml Mh.
  assert (Tail : forall q q' : bool, q' = q ->
    draw_unit
      (guard moderate_rows (if q then (Raise ValueError, w)
       else if negb (forallb (fun j => isfin (fsub (bound_at hi j) (bound_at lo j))) (seq 0 (Nat.max (bound_len lo) (bound_len hi)))) then (Raise OverflowError, w)
       else if (size <? 0)%Z then (Raise ValueError, w)
       else if negb (broadcasts (bound_len lo) n && broadcasts (bound_len hi) n) then (Raise ValueError, w)
       else let (u, w') := g_unif g (Z.to_nat size) n w in
        (Ok (float_arr (Z.to_nat size) n (fun i j => fadd (bound_at lo j) (fmul (fsub (bound_at hi j) (bound_at lo j)) (u i j)))), w')))
      (if q' then (Raise ValueError, w)
       else if negb (forallb (fun j => isfin (fsub (bound_at (scaled_bound e hi) j) (bound_at (scaled_bound e lo) j)))
               (seq 0 (Nat.max (bound_len (scaled_bound e lo)) (bound_len (scaled_bound e hi))))) then (Raise OverflowError, w)
       else if (size <? 0)%Z then (Raise ValueError, w)
       else if negb (broadcasts (bound_len (scaled_bound e lo)) n && broadcasts (bound_len (scaled_bound e hi)) n) then (Raise ValueError, w)
       else let (u, w') := g_unif g (Z.to_nat size) n w in
        (Ok (float_arr (Z.to_nat size) n (fun i j => fadd (bound_at (scaled_bound e lo) j)
           (fmul (fsub (bound_at (scaled_bound e hi) j) (bound_at (scaled_bound e lo) j)) (u i j)))), w'))).
  { intros q q' ->. destruct q; [exact I|]. rewrite !bound_unit_len.
    destruct (forallb (fun j => isfin (fsub (bound_at hi j) (bound_at lo j))) _) eqn:F; [|exact I]. cbn [negb].
    assert (F' : forallb (fun j => isfin (fsub (bound_at (scaled_bound e hi) j) (bound_at (scaled_bound e lo) j)))
                   (seq 0 (Nat.max (bound_len lo) (bound_len hi))) = true).
    { rewrite forallb_forall in F |- *. intros j Hj. rewrite !bound_unit.
      apply (uniform_cell (bound_at lo j) (bound_at hi j) (Z2f 0)); [apply bound_cases, Ml|apply bound_cases, Mh|reflexivity|apply F, Hj]. }
    rewrite F'. cbn [negb]. destruct (size <? 0)%Z; [exact I|]. destruct (broadcasts (bound_len lo) n && broadcasts (bound_len hi) n); [|exact I]. cbn [negb].
    pose proof (fun i j => proj1 (Hg (Z.to_nat size) n w i j)) as Hz. destruct (g_unif g (Z.to_nat size) n w) as [z w1]. cbn [fst] in Hz.
    unfold guard. match goal with |- context [if ?b then _ else _] => destruct b eqn:P end; [|exact I]. split; [|reflexivity]. cbn [fst].
    apply float_arr_unit; [|exact P]. intros i j Hj. rewrite !bound_unit.
    apply uniform_cell; [apply bound_cases, Ml|apply bound_cases, Mh|apply Hz]. }
  unfold np_uniform. destruct lo as [|p|t l], hi as [|p'|t' l']; try exact I; cbn [scaled_bound] in *;
    first [exact (Tail false false eq_refl)
          |apply Tail; cbn [bound_len]; rewrite ?map_length; reflexivity].
Qed.
End Unit.
