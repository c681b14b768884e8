(** Cases for C121. *)
From Coq Require Import String List ZArith Bool Lia Reals Lra.
From Flocq Require Import Core IEEE754.BinarySingleNaN.
From Verif Require Import PyBase B64 B64More NdArray Eda EdaInv Spec Rand RandThms Models ModelThms ModelMore Stock StockAll
  Demo DemoModels DemoStock DemoExt.
Import ListNotations.
Open Scope R_scope.

Lemma explore_met :
  (prob quarter /\ prob three_quarters /\ 0 < B2R quarter /\ B2R three_quarters < 1 /\ exists m', unibin_learn demo_bits demo_unibin = (Ok tt, m')) /\
  exists o r s, construct env0 (UMDAd (Some [half; half]) quarter three_quarters) (demo_args 3 2 None) = Ok o /\
     run env0 o cost7 ftol_default false tt = (Ok r, s) /\ Nat.leb 2 (List.length (gens (s_tr s))) = true.
Proof.
  split.
  - split; [split; reflexivity|]. split; [split; reflexivity|]. split; [|split; [|eexists; reflexivity]].
    + rewrite <- Z2f_0_R. apply flt_fin; reflexivity.
    + rewrite <- fone_R. apply flt_fin; reflexivity.
  - apply (ran_ok env0 _ cost7 ftol_default tt (fun _ tr => Nat.leb 2 (List.length (gens tr)))); vm_compute; reflexivity.
Qed.

(** Two individuals whose only bit is 0. *)
Definition zeros : arr := mkArr DInt 1 [[CI 0]; [CI 0]].
Lemma lost_bits : exists n upper m d m', unibin_made n upper (Z2f 0) m /\ a_nc d = n /\ Forall (bit_row n) (a_rows d) /\ a_rows d <> [] /\
  unibin_learn d m = (Ok tt, m') /\
  forall W (g : rng W) size w a w', unif_ok g -> unibin_sample g m' size w = (Ok a, w') ->
    forall i, (i < Z.to_nat size)%nat -> nth_error (nth i (a_rows a) []) 0 = Some (CI 0).
Proof.
  destruct (unibin_learn zeros (mkUB 1 (Z2f 0) fone [Z2f 0])) as [r m'] eqn:L.
  exists 1%nat, fone, (mkUB 1 (Z2f 0) fone [Z2f 0]), zeros, m'.
  assert (Hm : unibin_made 1 fone (Z2f 0) (mkUB 1 (Z2f 0) fone [Z2f 0])).
  { apply unibin_made_new. unfold unibin_new. assert (El : flt (Z2f 0) fone = true) by (vm_compute; reflexivity). rewrite El. reflexivity. }
  split; [exact Hm|]. split; [reflexivity|]. assert (Hb : Forall (bit_row 1) (a_rows zeros)).
  { repeat constructor. }
  split; [exact Hb|]. split; [discriminate|].
  destruct (unibin_bits_made 1 fone (Z2f 0) _ zeros Hm eq_refl Hb ltac:(discriminate)) as (m1 & L1 & Hlp & Hp).
  assert (m1 = m' /\ r = Ok tt) as [-> ->] by (split; congruence). split; [exact L|].
  intros W g size w a w' Hg Hs i Hi. destruct (Hp 0%nat ltac:(lia)) as (p & Hpj & C1 & C2 & C3).
  destruct (unibin_made_learn _ _ _ _ _ _ _ Hm L) as (_ & Hn' & _ & _).
  apply unibin_sample_spec in Hs as (_ & _ & _ & S3 & _ & S5). rewrite Hn', Hlp in S3. cbn in S3. assert (Hw : a_nc a = 1%nat) by congruence.
  rewrite (S5 i 0%nat Hi ltac:(lia)). rewrite Hn', Hlp. change (bidx 1 0) with 0%nat. rewrite (nth_error_nth _ _ fnan Hpj).
  assert (Hp0 : p = fdiv (Z2f (Z.of_nat (ones_in 0 (a_rows zeros)))) (Z2f (Z.of_nat (List.length (a_rows zeros))))) by (apply C3; reflexivity).
  destruct (Hg (Z.to_nat size) 1%nat w i 0%nat) as [U0 U1]. destruct (unit_R _ U0 U1) as [Fx Rx].
  assert (Fp : isfin p = true) by (rewrite Hp0; reflexivity).
  assert (Rp : B2R p = 0).
  { rewrite Hp0. assert (Ez : feq (fdiv (Z2f (Z.of_nat (ones_in 0 (a_rows zeros)))) (Z2f (Z.of_nat (List.length (a_rows zeros))))) (Z2f 0) = true) by reflexivity.
    apply feq_fin in Ez; [|reflexivity|reflexivity]. rewrite Ez. apply Z2f_0_R. }
  destruct (flt _ p) eqn:Ef; [|reflexivity]. exfalso. apply (flt_fin _ _ Fx Fp) in Ef. lra.
Qed.
