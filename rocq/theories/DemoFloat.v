(** Concrete data for the rounding theorems. *)
From Coq Require Import List ZArith Reals Lra Lia.
From Flocq Require Import Core IEEE754.BinarySingleNaN.
From Verif Require Import PyBase B64 B64More NdArray Rand Models ModelThms FloatSum Demo DemoModels.
Import ListNotations.

Definition tenths : arr := mkArr DFloat 1 [[CF (dec 1 1)]; [CF (dec 1 1)]; [CF (dec 1 1)]].

Lemma mean_above : exists d q, a_nc d = 1%nat /\ a_rows d <> [] /\
  unigauss_learn (b64_ops seq_sum) (Z2f 0) (num_col d) [(Z2f 0, Z2f 0)] = (Ok tt, [q]) /\
  exists x, num_col d 0 = Ok x /\ forall v, In v x -> flt v (fst q) = true.
Proof.
  exists tenths. eexists. split; [reflexivity|]. split; [discriminate|]. split; [reflexivity|]. eexists. split; [reflexivity|].
  intros v Hv. assert (E : v = dec 1 1) by (cbn [In] in Hv; intuition congruence). subst v. vm_compute. reflexivity.
Qed.

Definition two_values : arr := mkArr DFloat 1 [[CF (Z2f 1)]; [CF (Z2f 4)]].

Open Scope R_scope.
Lemma float_case : exists q, (forall l, added l (seq_sum l)) /\
  unigauss_learn (b64_ops seq_sum) fone (num_col two_values) [(Z2f 0, Z2f 0)] = (Ok tt, [q]) /\
  num_col two_values 0 = Ok [Z2f 1; Z2f 4] /\ (forall v, In v [Z2f 1; Z2f 4] -> isfin v = true /\ Rabs (B2R v) <= 4) /\
  4 <= bpow radix2 400.
Proof.
  eexists. split; [exact seq_adds|]. split; [reflexivity|]. split; [reflexivity|]. split.
  - destruct (Z2f_exact 1) as [E1 F1]; [lia|]. destruct (Z2f_exact 4) as [E4 F4]; [lia|].
    intros v [<-|[<-|[]]]; (split; [assumption|]); [rewrite E1|rewrite E4]; rewrite Rabs_right; lra.
  - change 4 with (bpow radix2 2). apply bpow_le. lia.
Qed.
Lemma float_case_adapt : exists q, adapt_learn (b64_ops seq_sum) fone (lit 1 (-1)) (num_col two_values) [(Z2f 0, Z2f 0)] = (Ok tt, [q]) /\
  isfin (lit 1 (-1)) = true /\ 0 <= B2R (lit 1 (-1)) <= 1.
Proof. eexists. split; [reflexivity|]. split; [vm_compute; reflexivity|]. destruct (lit_R 1 (-1) (/ 2)) as [-> _]; [cbn; lia|lia|cbn; lra|lra]. Qed.
Definition two_columns : arr := mkArr DFloat 2 [[CF (Z2f 1); CF (Z2f 4)]; [CF (Z2f 4); CF (Z2f 1)]].
Lemma float_case_multi : exists p', multigauss_learn (b64_ops seq_sum) fone (Z2f 8) 2 (num_col two_columns) (mkMG [Z2f 0; Z2f 0] (CovScalar (Z2f 0))) = (Ok tt, p') /\
  num_col two_columns 0 = Ok [Z2f 1; Z2f 4] /\ num_col two_columns 1 = Ok [Z2f 4; Z2f 1] /\ bpow radix2 (-500) <= 4 <= bpow radix2 400.
Proof.
  eexists. split; [reflexivity|]. split; [reflexivity|]. split; [reflexivity|]. change 4 with (bpow radix2 2). split; apply bpow_le; lia.
Qed.
