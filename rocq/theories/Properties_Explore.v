(** Bits do not die out in UMDAd while its bounds keep them alive. *)
From Coq Require Import String List ZArith Bool Lia Reals Lra.
From Flocq Require Import Core IEEE754.BinarySingleNaN.
From Verif Require Import PyBase B64 NdArray Eda EdaInv Spec Rand RandThms Models ModelThms ModelMore FloatSum Chance Stock StockInv StockAll Explore ExploreDemo
  Demo DemoModels DemoStock.
Import ListNotations.
Open Scope R_scope.

(* ------------------------------ C121 ------------------------------ *)
(** Every generation after the first: the counted probability of a 1 in column [j], and the two
    draws that give a 1 and a 0. *)
Theorem C121_chance : forall (X W : Type) (E : env X W) g vector lo hi o0 o cost a ftol out w r s,
  construct E (UMDAd vector lo hi) g = Ok o0 -> used E o0 o ->
  (forall v, vector = Some v -> List.length v = Z.to_nat (g_nvars g)) ->
  (forall d, g_init_data g = Some d -> bit_arr (Z.to_nat (g_nvars g)) d) ->
  prob lo -> prob hi ->
  run_in E a o cost ftol out w = (r, s) ->
  forall k gen vals, nth_error (gens (s_tr s)) (S k) = Some (gen, vals) ->
  exists d, nth_error (learns (s_tr s)) k = Some d /\
    ((Z.of_nat (List.length (a_rows d)) <= 2 ^ 53)%Z -> umdad_open E lo hi (Z.to_nat (g_size_gen g)) (Z.to_nat (g_nvars g)) d gen).
Proof. exact (fun X W => @umdad_explores X W). Qed.
Print Assumptions C121_chance.

(** With bounds strictly between 0 and 1 every matrix of bits is a possible sample. *)
Theorem C121_any : forall n upper lower m d m',
  unibin_made n upper lower m -> a_nc d = n -> Forall (bit_row n) (a_rows d) -> a_rows d <> [] ->
  (Z.of_nat (List.length (a_rows d)) <= 2 ^ 53)%Z -> prob lower -> prob upper -> 0 < B2R lower -> B2R upper < 1 ->
  unibin_learn d m = (Ok tt, m') ->
  forall (size : nat) (b : nat -> nat -> bool), exists v : nat -> nat -> Z, (forall i j, (0 <= v i j < 2 ^ 53)%Z) /\
  forall W (g : rng W) w,
    (forall i j, (i < size)%nat -> (j < n)%nat -> fst (g_unif g size n w) i j = unit53 (v i j)) ->
    exists a w', unibin_sample g m' (Z.of_nat size) w = (Ok a, w') /\ a_len a = size /\ a_nc a = n /\
      forall i j, (i < size)%nat -> (j < n)%nat -> nth_error (nth i (a_rows a) []) j = Some (CI (if b i j then 1 else 0)%Z).
Proof. exact any_bits. Qed.
Print Assumptions C121_any.

(** With a lower bound of 0 a column without ones stays without ones, whatever is drawn. *)
Theorem C121_lost_refuted : exists n upper m d m', unibin_made n upper (Z2f 0) m /\ a_nc d = n /\ Forall (bit_row n) (a_rows d) /\ a_rows d <> [] /\
  unibin_learn d m = (Ok tt, m') /\
  forall W (g : rng W) size w a w', unif_ok g -> unibin_sample g m' size w = (Ok a, w') ->
    forall i, (i < Z.to_nat size)%nat -> nth_error (nth i (a_rows a) []) 0 = Some (CI 0).
Proof. exact lost_bits. Qed.
Print Assumptions C121_lost_refuted.

Example C121_met :
  (prob quarter /\ prob three_quarters /\ 0 < B2R quarter /\ B2R three_quarters < 1 /\ exists m', unibin_learn demo_bits demo_unibin = (Ok tt, m')) /\
  exists o r s, construct env0 (UMDAd (Some [half; half]) quarter three_quarters) (demo_args 3 2 None) = Ok o /\
     run env0 o cost7 ftol_default false tt = (Ok r, s) /\ Nat.leb 2 (List.length (gens (s_tr s))) = true.
Proof. exact explore_met. Qed.
