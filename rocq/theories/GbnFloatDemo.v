(** A network of doubles. *)
From Coq Require Import String List ZArith.
From Verif Require Import PyBase B64 Demo Models Gbn GbnSpec.
Import ListNotations.
Open Scope string_scope.

Definition chain64 : network f64 :=
  mkNet ["a"; "b"; "c"] (fun v =>
    if String.eqb v "a" then mkCpd [] [Z2f 1] (dec 1 1)
    else if String.eqb v "b" then mkCpd ["a"] [Z2f 2; dec 3 1] (Z2f 1)
    else mkCpd ["b"] [dec 7 1; Z2f (-3)] (dec 5 1)).

Lemma chain64_met : dag chain64 /\ d_parents (n_cpd chain64 "c") = ["b"] /\
  (exists m, get_mu (b64_ops seq_sum) chain64 [] = Ok m /\ map isfin m = [true; true; true]) /\
  exists m, get_sigma (b64_ops seq_sum) (dec 1 8) chain64 [] = Ok m /\ map (map isfin) m = [[true; true; true]; [true; true; true]; [true; true; true]].
Proof.
  split; [|split; [reflexivity|split]].
  - split; [cbn; repeat constructor; cbn; intuition discriminate|]. intros i v H.
    destruct i as [|[|[|i]]]; cbn [nth_error n_order chain64] in H; [| | |destruct i; discriminate];
      inversion H; subst v; (split; [reflexivity|]); apply Forall_forall; intros p Hp; cbn in *; tauto.
  - destruct (get_mu (b64_ops seq_sum) chain64 []) as [m|e] eqn:E.
    + exists m. split; [reflexivity|]. assert (X : match get_mu (b64_ops seq_sum) chain64 [] with Ok m => map isfin m | _ => [] end = [true; true; true]) by (vm_compute; reflexivity).
      rewrite E in X. exact X.
    + assert (X : is_ok (get_mu (b64_ops seq_sum) chain64 []) = true) by (vm_compute; reflexivity). rewrite E in X. discriminate X.
  - destruct (get_sigma (b64_ops seq_sum) (dec 1 8) chain64 []) as [m|e] eqn:E.
    + exists m. split; [reflexivity|]. assert (X : match get_sigma (b64_ops seq_sum) (dec 1 8) chain64 [] with Ok m => map (map isfin) m | _ => [] end = [[true; true; true]; [true; true; true]; [true; true; true]]) by (vm_compute; reflexivity).
      rewrite E in X. exact X.
    + assert (X : is_ok (get_sigma (b64_ops seq_sum) (dec 1 8) chain64 []) = true) by (vm_compute; reflexivity). rewrite E in X. discriminate X.
Qed.
