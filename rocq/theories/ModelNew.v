(** The Gaussian models before they have learned anything. *)
From Coq Require Import String List ZArith Bool Lia.
From Flocq Require Import Core IEEE754.BinarySingleNaN.
From Verif Require Import PyBase B64 B64More NdArray Eda Rand Models.
Import ListNotations.
Open Scope nat_scope.

Lemma zero_is : Z2f 0 = B754_zero false.
Proof. apply B2SF_inj. vm_compute. reflexivity. Qed.
Lemma zero_draw (z : f64) : isfin z = true -> fadd (Z2f 0) (fmul (Z2f 0) z) = Z2f 0.
Proof. rewrite zero_is. destruct z as [s|s| |s m x Hx]; try discriminate; destruct s; reflexivity. Qed.
Lemma nth_zero n j : j < n -> nth (bidx n j) (repeat (Z2f 0) n) fnan = Z2f 0.
Proof.
  intros H. unfold bidx. destruct (Nat.eqb_spec n 1) as [->|_]; [reflexivity|].
  apply (repeat_spec n). apply nth_In. rewrite repeat_length. exact H.
Qed.
Lemma map_repeat {A B} (f : A -> B) x n : map f (repeat x n) = repeat (f x) n.
Proof. induction n as [|n IH]; cbn; [reflexivity|]. rewrite IH. reflexivity. Qed.
Lemma new_sample {W} (g : rng W) n size w : (0 <= size)%Z ->
  (forall i j, isfin (fst (g_gauss g (Z.to_nat size) n w) i j) = true) ->
  gauss_sample g (gauss_new n) size w = (Ok (float_arr (Z.to_nat size) n (fun _ _ => Z2f 0)), snd (g_gauss g (Z.to_nat size) n w)).
Proof.
  intros Hs Hz. unfold gauss_sample, gauss_new. rewrite !map_repeat, repeat_length. cbn [fst snd]. unfold np_normal.
  assert (Hn : existsb neg_signed (repeat (Z2f 0) n) = false).
  { clear. rewrite zero_is. induction n as [|k IH]; [reflexivity|]. cbn [repeat existsb]. rewrite IH. reflexivity. }
  rewrite Hn. destruct (Z.ltb_spec size 0); [lia|]. rewrite !repeat_length. unfold broadcasts. rewrite Nat.eqb_refl. cbn [orb andb negb].
  destruct (g_gauss g (Z.to_nat size) n w) as [z w']. cbn [fst snd] in *. do 2 f_equal. unfold float_arr. f_equal. unfold tabulate.
  apply map_ext. intros i. apply map_ext_in. intros j Hj. apply in_seq in Hj. rewrite !nth_zero by lia. rewrite zero_draw by apply Hz. reflexivity.
Qed.
