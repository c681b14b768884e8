(** Configurations that are accepted but cannot get past the first generation, and the
    bound on the archive. *)
From Coq Require Import String List ZArith Bool Lia.
From Verif Require Import PyBase B64 NdArray Eda EdaInv Spec TopK LoopObs LoopThms Select LoopTrain LoopRel LoopInv LoopFinal Rand Models Inits InitThms ModelThms CatThms ModelProps Stock StockInv StockGauss StockCat StockPrior StockArchive.
Import ListNotations.
Open Scope nat_scope.

Section Fail.
Context {X W : Type}.
Variable E : env X W.

(** When no iteration can succeed after the first generation, only runs of at most one
    iteration return. *)
Lemma one_generation (o : optimiser X) cost (I : st (pmstate X) W -> Prop) a ftol out w r s :
  (forall b s1 w1 s1', first_facts (op_cfg o) (hooks_of E o cost) (mkSt a (op_st o) w []) s1 b ->
     printed_after (mkSt (s_obj s1) (s_pm s1) w1 (s_tr s1)) s1' -> I s1') ->
  (forall wn s0 b acc s1, noise_cfg (op_cfg o) wn -> I s0 -> ~ iter_facts (op_cfg o) (hooks_of E o cost) ftol wn s0 s1 b acc) ->
  run_in E a o cost ftol out w = (Ok r, s) -> (c_max_iter (op_cfg o) <= 1)%Z.
Proof.
  intros H0 H1 H.
  destruct (minimize_rule _ _ ftol out (fun hist nb s => I s /\ List.length hist = 1 /\ nb = 0%Z) _ _ _
    (fun b s1 w1 s1' F P => conj (H0 b s1 w1 s1' F P) (conj eq_refl eq_refl))
    (fun wn hist nb s0 b acc s1 s1' Hn I _ _ F P => False_ind _ (H1 wn s0 b acc s1 Hn (proj1 I) F)) H)
    as (nb & sf & (_ & I1 & I2) & _ & _ & [HL|[HL1 HL2]] & _); lia.
Qed.

(** A float [l] is no index: _update_archive raises. *)
Lemma float_l_fails (o : optimiser X) cost x a ftol out w r s :
  op_upd o = FromArchive (PyF x) -> run_in E a o cost ftol out w = (Ok r, s) -> (c_max_iter (op_cfg o) <= 1)%Z.
Proof.
  intros Hu. apply (one_generation o cost (fun _ => True)); [auto|].
  intros wn s0 b acc s1 _ _ F. destruct F. cbn [hooks_of h_data] in if_hdata. rewrite Hu in if_hdata. cbn [data_of] in if_hdata.
  unfold update_archive in if_hdata. destruct (np_concatenate _ _); cbn [archive_slice] in if_hdata; discriminate.
Qed.

(** Gaussian noise cannot be added in place to integers. *)
Lemma int_noise_fails (o : optimiser X) cost a ftol out w r s :
  (forall w a w', h_init (hooks_of E o cost) w = (Ok a, w') -> a_dt a = DInt) -> c_init_data (op_cfg o) = None ->
  py_eq_int (c_w_noise (op_cfg o)) 0 = false -> py_eq_int (c_w_noise (op_cfg o)) (-1) = false ->
  run_in E a o cost ftol out w = (Ok r, s) -> (c_max_iter (op_cfg o) <= 1)%Z.
Proof.
  intros Hi Hd N0 N1. apply (one_generation o cost (fun s => a_dt (o_gen (s_obj s)) = DInt /\ a_dt (o_elite (s_obj s)) = DInt)).
  - intros b s1 w1 s1' F P. rewrite (printed_obj _ _ P). destruct F. rewrite Hd in ff_init. apply Hi in ff_init. subst s1. cbn. auto.
  - intros wn s0 b acc s1 Hn [G1 G2] F. destruct F. destruct if_sel as [gen Hc He Ht Hve Hvt].
    apply concat_same_dtype in Hc as [Hgd _]; [|congruence]. apply take_rows_ok in Ht as (Htd & _ & _).
    destruct wn as [| |nr nc dr]; cbn [noise_cfg] in Hn; [congruence|destruct Hn; congruence|].
    assert (G : a_dt if_gen' = DInt) by congruence. unfold iadd in if_iadd. rewrite G in if_iadd. discriminate.
Qed.

(** The archive has at most [L] rows, if it did before. *)
Definition archive_le (L : Z) (p : pmstate X) : Prop := (Z.of_nat (a_len (ps_archive p)) <= L)%Z.

Lemma slice_from_le {A} (L : Z) (l : list A) : (1 <= L)%Z -> (Z.of_nat (List.length (slice_from (- L) l)) <= L)%Z.
Proof.
  intros H. unfold slice_from. destruct (Z.leb_spec 0 (- L)); [lia|]. rewrite skipn_length. lia.
Qed.

Lemma archive_bounded (o0 o : optimiser X) L cost a ftol out w r s :
  op_upd o0 = FromArchive (PyI L) -> (1 <= L)%Z -> used E o0 o ->
  archive_le L (op_st o0) -> run_in E a o cost ftol out w = (r, s) ->
  Forall (fun d => (Z.of_nat (a_len d) <= L)%Z) (learns (s_tr s)).
Proof.
  intros Hu HL U H0 H.
  (* between appending and slicing nothing can fail, so the bound holds after every call *)
  assert (Hd : forall t e p, archive_le L p -> let (r, p') := data_of (FromArchive (PyI L)) t e p in
            archive_le L p' /\ match r with Ok d => (Z.of_nat (a_len d) <= L)%Z | Raise _ => True end).
  { intros t e p Hp. cbn [data_of]. unfold update_archive. destruct (np_concatenate (ps_archive p) e) as [ar|x]; [|auto].
    cbn [archive_slice]. unfold archive_le. cbn [ps_archive a_len a_rows]. split; apply slice_from_le; exact HL. }
  assert (Hl : forall (o1 : optimiser X) cost1 d p w1, archive_le L p -> archive_le L (fst (snd (h_learn (hooks_of E o1 cost1) d p w1)))).
  { intros o1 cost1 d p w1 Hp. cbn [hooks_of h_learn]. destruct (ps_pm p) as [m|]; [|exact Hp].
    destruct (model_learn E d m w1) as [r0 [m' w']]. exact Hp. }
  assert (HQ : archive_le L (op_st o)).
  { revert U. apply (used_keeps E (archive_le L)); [|exact H0].
    intros o1 a1 cost1 ftol1 out1 w1 r1 s1 _ _ Hu1 HQ. apply (run_keeps E (archive_le L)); [| |exact HQ].
    - intros t e p Hp. specialize (Hd t e p Hp). rewrite Hu1, Hu. destruct (data_of _ t e p). apply Hd.
    - intros d p w2. apply Hl. }
  destruct (used_setup E _ _ U) as (_ & _ & Hu1 & _).
  assert (LS : loop_spec (op_cfg o) (hooks_of E o cost) (fun _ => True) (fun _ => True) (fun _ => True)
                (fun d => (Z.of_nat (a_len d) <= L)%Z) (archive_le L)
                (fun _ _ => True) (fun _ _ => True) (fun _ => True) (fun _ => True) (fun _ => false = false)).
  { split; auto.
    - destruct (c_init_data (op_cfg o)); [exact I|]. intros w0. destruct (fst _); auto.
    - intros g _. apply Forall_forall. auto.
    - intros x w0 _. destruct (fst _); auto.
    - intros a0 b _ _. destruct (np_concatenate a0 b); auto.
    - intros g sel wn _ _ _ _. destruct (iadd sel wn); auto.
    - intros t e p _ _ Hp. specialize (Hd t e p Hp). cbn [hooks_of h_data]. rewrite Hu1, Hu.
      destruct (data_of _ t e p) as [[d|x] q]; destruct Hd as [D1 D2]; auto.
    - intros d p w0 _ Hp. specialize (Hl o cost d p w0 Hp). destruct (h_learn (hooks_of E o cost) d p w0) as [[u|x] [q w1]]; auto.
    - intros d p w0 _ _ _. destruct (fst _); auto. }
  destruct (run_spec E false o cost _ _ _ _ _ _ _ _ _ a ftol out w r s LS HQ H) as (_ & (_ & T & _) & _). exact T.
Qed.

(** With [l = 0] nothing is ever dropped. *)
Lemma archive_unbounded e (ar : arr) : fst (update_archive (PyI 0) e ar) = np_concatenate ar e.
Proof. unfold update_archive. destruct (np_concatenate ar e) as [x|x]; [|reflexivity]. cbn. destruct x; reflexivity. Qed.

End Fail.
