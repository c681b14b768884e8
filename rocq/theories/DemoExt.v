(** Libraries that remember their data set and sample its first row, for the examples of
    Properties_Ext.v. *)
From Coq Require Import String List ZArith Bool Lia.
From Verif Require Import PyBase B64 B64More NdArray Eda EdaInv Spec LoopInv Rand RandThms Models Inits InitThms ModelThms CatThms Stock StockInv StockGauss StockCat StockAll StockExt Sign Trunc Demo DemoModels DemoStock.
Import ListNotations.
Open Scope nat_scope.

Definition mem_sample (k : pm_class) (x : option arr) (size : Z) (w : unit) : res arr * unit :=
  match x with
  | Some d => (Ok (mkArr (a_dt d) (a_nc d) (repeat (nth 0 (a_rows d) []) (Z.to_nat size))), w)
  | None => (Raise AttributeError, w)
  end.
(** A library that refuses data sets of more than [most] rows. *)
Definition mem_env (most : nat) (g : rng unit) : env (option arr) unit :=
  mkEnv g seq_sum (fun _ => "0"%string) argsort_ref (mkPool 0 (fun i => i) (fun _ => 0)) (fun _ _ => None)
        (fun _ d _ w => if Nat.leb (a_len d) most then (Ok tt, (Some d, w)) else (Raise (UserExn 1), (None, w))) mem_sample.

Lemma mem_trained most g k d x w x' w' : e_xlearn (mem_env most g) k d x w = (Ok tt, (x', w')) -> x' = Some d.
Proof. cbn. destruct (Nat.leb (a_len d) most); [congruence|discriminate]. Qed.

Lemma first_row (d : arr) (P : row -> Prop) : Forall P (a_rows d) -> 1 <= a_len d -> P (nth 0 (a_rows d) []).
Proof. intros H Hl. unfold a_len in Hl. rewrite Forall_forall in H. apply H, nth_In. lia. Qed.

Lemma mem_floats most g k n lo hi size : 1 <= lo -> library_samples (mem_env most g) k (float_data n lo hi) (sampled_floats n size) size.
Proof.
  intros Hlo d x w x' w' w2 a w3 [(D1 & D2 & D3) D4] Hl Hs. apply mem_trained in Hl. subst x'. cbn [mem_env e_xsample mem_sample] in Hs.
  assert (a = mkArr (a_dt d) (a_nc d) (repeat (nth 0 (a_rows d) []) (Z.to_nat size))) by congruence. subst a. split; [split; [exact D1|split; [exact D2|]]|apply repeat_length].
  cbn [a_rows]. apply Forall_forall. intros r Hr. apply repeat_spec in Hr. subst r. apply (first_row d); [exact D3|lia].
Qed.
Lemma mem_cats most g n values t size : 1 <= t -> library_samples (mem_env most g) KBN (string_data n values t) (sampled_cats n size) size.
Proof.
  intros Ht d x w x' w' w2 a w3 ((D0 & D1 & D2) & D3 & D4 & D5) Hl Hs. apply mem_trained in Hl. subst x'. cbn [mem_env e_xsample mem_sample] in Hs.
  assert (a = mkArr (a_dt d) (a_nc d) (repeat (nth 0 (a_rows d) []) (Z.to_nat size))) by congruence. subst a.
  split; [exact D3|]. split; [exact D1|]. split; [apply repeat_length|]. cbn [a_rows]. split.
  - apply Forall_forall. intros r Hr. apply repeat_spec in Hr. subst r. refine (proj1 (first_row d _ D2 _)). lia.
  - intros j Hj c Hc. unfold column in *. apply in_map_iff in Hc as (r & <- & Hr). apply repeat_spec in Hr. subst r. apply in_map_iff.
    eexists. split; [reflexivity|]. apply nth_In. unfold a_len in D5. lia.
Qed.

(** Data sets of at most [most] rows are never refused. *)
Lemma mem_never g k n lo hi size e : ~ library_raises (mem_env hi g) k (float_data n lo hi) size e.
Proof.
  intros [(d & x & w & x' & w' & [_ Hd] & Hl)|(d & x & w & x' & w' & w2 & w3 & [_ Hd] & Hl & Hs)].
  - cbn in Hl. destruct (Nat.leb_spec (a_len d) hi); [discriminate|lia].
  - apply mem_trained in Hl. subst x'. discriminate.
Qed.

Definition speda_l (l : Z) : algorithm := SPEDA (num 0) (num 1) (PyI l) None.
Definition egna0 : algorithm := EGNA (num 0) (num 1) None.
Definition emna0 : algorithm := EMNA (num 0) (num 1) (Z2f 0) (Z2f 1) None (fun _ => Z2f 0).

Lemma float_args_met A max_iter : start_bounds A = Some (num 0, num 1) -> passed_noise A = None ->
  float_args (mem_env 4 demo_rng) A (demo_args max_iter 2 None) 2 cost7.
Proof.
  intros HB HN. split; [cbn; lia|]. split; [vm_compute; reflexivity|]. split; [cbn; lia|].
  split; [intros _ lo hi H; rewrite HB in H; assert (lo = num 0) by congruence; assert (hi = num 1) by congruence; subst; apply bounds01|].
  split; [discriminate|]. split; [rewrite HN; exact I|]. split; [discriminate|apply cost7_total].
Qed.

Lemma cat_args_met : cat_args (mem_env 4 demo_rng) (demo_args 3 1 None) demo_values demo_freq 2 cost7.
Proof.
  split; [cbn; lia|]. split; [exact demo_category|].
  split; [intros [|j] v Hj Hv; [|cbn in Hj; lia]; apply (f_equal (fun r => match r with Some x => x | None => [] end)) in Hv; subst v; repeat constructor|].
  split; [intros j v f Hv Hf; split; [|exact (demo_freq_near j f Hf)];
          destruct j as [|[|j]]; [|discriminate|discriminate]; apply (f_equal (fun r => match r with Some x => x | None => [] end)) in Hf; subst f; cbn; lia|].
  split; [vm_compute; reflexivity|]. split; [cbn; lia|]. split; [discriminate|]. split; [discriminate|apply cost7_total].
Qed.

(** A generator whose multivariate_normal refuses every matrix. *)
Definition no_svd : rng unit := {|
  g_unif := g_unif demo_rng; g_gauss := g_gauss demo_rng; g_pick := g_pick demo_rng;
  g_mvn := fun _ _ _ w => (Raise (UserExn 2), w) |}.
