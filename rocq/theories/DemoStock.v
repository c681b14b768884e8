(** A concrete environment and runs of the stock optimisers in it, for the examples and
    refutations of Properties_Stock.v. *)
From Coq Require Import String List ZArith Bool Lia.
From Verif Require Import PyBase B64 B64More NdArray Eda EdaInv Spec LoopInv Rand RandThms Models Inits InitThms InitGauss Stock StockInv StockGauss StockCat StockPrior StockArchive StockAll StockMore StockCustom Sign Trunc Demo DemoModels.
Import ListNotations.
Open Scope nat_scope.

(** External models remember how many rows they learned and sample [minus] that number. *)
Definition demo_xsample (k : pm_class) (x : nat) (size : Z) (w : unit) : res arr * unit :=
  (Ok (float_arr (Z.to_nat size) 1 (fun _ _ => Z2f (- Z.of_nat x))), w).
Definition demo_env (g : rng unit) : env nat unit :=
  mkEnv g seq_sum (fun _ => "0"%string) argsort_ref (mkPool 0 (fun i => i) (fun _ => 0)) (fun _ _ => 0)
        (fun _ d _ w => (Ok tt, (a_len d, w))) demo_xsample.
Definition env0 : env nat unit := demo_env demo_rng.

Lemma env0_refits : refits env0.
Proof. intros k d x x' w. cbn. auto. Qed.
Lemma env0_floats k size : samples_floats env0 k size.
Proof. intros x w a w' H. cbn in H. unfold demo_xsample in H. assert (a = float_arr (Z.to_nat size) 1 (fun _ _ => Z2f (- Z.of_nat x))) by congruence. subst a. split; [reflexivity|]. unfold a_len, float_arr. cbn [a_rows]. apply tabulate_length. Qed.

(** size_gen 4, alpha = elite_factor = 1/2. *)
Definition demo_args (max_iter nvars : Z) (init : option arr) : args :=
  mkArgs 4 max_iter 1 nvars (PyF half) (PyF half) false false init.

Definition cost0 (r : row) (w : unit) : res num * unit := (Ok (first_cell r), w).
(** Any individual costs 7. *)
Definition cost7 (r : row) (w : unit) : res num * unit := (Ok (NI 7), w).
Lemma cost7_total P : cost_total P cost7.
Proof. intros r w _. exists (NI 7). split; [reflexivity|exact I]. Qed.

Lemma factor_half : factor (PyF half).
Proof. split; vm_compute; reflexivity. Qed.

(** Construct, run, test. *)
Definition ran {X W} (E : env X W) (ro : res (optimiser X)) cost ftol w (P : result -> list ev -> bool) : bool :=
  match ro with
  | Ok o => match run E o cost ftol false w with (Ok r, s) => P r (s_tr s) | _ => false end
  | Raise _ => false
  end.
Lemma ran_ok {X W} (E : env X W) ro cost ftol w P : ran E ro cost ftol w P = true ->
  exists o r s, ro = Ok o /\ run E o cost ftol false w = (Ok r, s) /\ P r (s_tr s) = true.
Proof.
  unfold ran. destruct ro as [o|]; [|discriminate]. destruct (run E o cost ftol false w) as [[r|] s] eqn:H; [|discriminate]. eauto 6.
Qed.
(** Run twice on the same object. *)
Definition ran_twice {X W} (E : env X W) (ro : res (optimiser X)) cost ftol w (P : result -> result -> bool) : bool :=
  match ro with
  | Ok o => match run E o cost ftol false w with
            | (Ok r, s) => match run_in E (s_obj s) (after o s) cost ftol false w with (Ok r', _) => P r r' | _ => false end
            | _ => false end
  | Raise _ => false
  end.
Lemma ran_twice_ok {X W} (E : env X W) ro cost ftol w P : ran_twice E ro cost ftol w P = true ->
  exists o r s r' s', ro = Ok o /\ run E o cost ftol false w = (Ok r, s) /\
    run_in E (s_obj s) (after o s) cost ftol false w = (Ok r', s') /\ P r r' = true.
Proof.
  unfold ran_twice. destruct ro as [o|]; [|discriminate]. destruct (run E o cost ftol false w) as [[r|] s] eqn:H; [|discriminate].
  destruct (run_in E (s_obj s) (after o s) cost ftol false w) as [[r'|] s'] eqn:H'; [|discriminate]. intros HP. exists o, r, s, r', s'. auto.
Qed.
Definition raised {X W} (E : env X W) (ro : res (optimiser X)) cost ftol w : option exn :=
  match ro with
  | Ok o => match run E o cost ftol false w with (Raise e, _) => Some e | _ => None end
  | Raise _ => None
  end.
Lemma raised_ok {X W} (E : env X W) ro cost ftol w e : raised E ro cost ftol w = Some e ->
  exists o s, ro = Ok o /\ run E o cost ftol false w = (Raise e, s).
Proof.
  unfold raised. destruct ro as [o|]; [|discriminate]. destruct (run E o cost ftol false w) as [[r|e'] s] eqn:H; [discriminate|].
  intros He. exists o, s. split; [reflexivity|]. congruence.
Qed.

Definition num (z : Z) : bound := BNum (PyI z).
Lemma bounds01 n : bounds_ok n (num 0) (num 1).
Proof.
  split; [cbn; auto|]. split; [cbn; auto|]. intros j l h _ -> ->. repeat split; vm_compute; reflexivity.
Qed.

Definition umdac0 := UMDAc (num 0) (num 1) None half None.
Definition speda (l : pynum) := SPEDA (num 0) (num 1) l None.

Definition strings2 : list (list cell) := [[CS "a"; CS "b"]; [CS "x"; CS "y"]].
Definition halves2 : list (list f64) := [[half; half]; [half; half]].
Lemma strings2_ok : cats_ok strings2 halves2.
Proof.
  intros j v f. destruct j as [|[|j]]; cbn [nth_error strings2 halves2]; intros H1 H2;
    [| |destruct j; discriminate]; assert (f = [half; half]) by congruence; subst f;
    (split; [left; apply (f_equal (fun r => match r with Some x => x | None => [] end)) in H1; subst v; repeat constructor|split; [repeat constructor; vm_compute; reflexivity|cbn; lia]]).
Qed.
Definition ints2 : list (list cell) := [[CS "a"; CS "b"]; [CI 0; CI 1]].
Lemma ints2_ok : cats_ok ints2 halves2.
Proof.
  intros j v f. destruct j as [|[|j]]; cbn [nth_error ints2 halves2]; intros H1 H2;
    [| |destruct j; discriminate]; assert (f = [half; half]) by congruence; subst f;
    apply (f_equal (fun r => match r with Some x => x | None => [] end)) in H1; subst v;
    (split; [|split; [repeat constructor; vm_compute; reflexivity|cbn; lia]]); [left|right]; repeat constructor.
Qed.

(** EDACustom arguments. *)
Definition demo_cargs (pm init : Z) : cargs :=
  mkCArgs 4 3 2 2 (PyF half) (PyF half) false pm init (PyI (-100)) (PyI 100).
