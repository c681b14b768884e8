(** Theorems about the text of a result. *)
From Coq Require Import String Ascii List ZArith.
From Verif Require Import PyBase B64 NdArray Eda Summary.
Import ListNotations.
Open Scope string_scope.

(* ------------------------------ C96 ------------------------------ *)
(** The text of a result says what the result contains: two results with the same text show
    the same number of evaluations, cost, cpu time, individual, settings and history. *)
Theorem C96_readable_partial : forall p r r' cpu cpu', plain_text p -> summary p r cpu = summary p r' cpu' ->
  str_int p (r_nfev r) = str_int p (r_nfev r') /\
  str_float p (r_best_cost r) = str_float p (r_best_cost r') /\
  str_float p cpu = str_float p cpu' /\
  str_ind p (r_best_ind r) = str_ind p (r_best_ind r') /\
  str_settings p (r_settings r) = str_settings p (r_settings r') /\
  str_history p (r_history r) = str_history p (r_history r').
Proof. exact summary_read. Qed.
Print Assumptions C96_readable_partial.

(** The label of the cpu time is glued to the cost before it: whenever the cost is written
    without a blank at its end, no blank precedes the label. *)
Theorem C96_glued : forall p r cpu a s, str_float p (r_best_cost r) = s ++ String a "" -> blank a = false ->
  ~ set_apart "CPU time (s) = " (summary p r cpu).
Proof. exact not_set_apart. Qed.
Print Assumptions C96_glued.

Theorem C96_set_apart_refuted : exists p r cpu, plain_text p /\ ~ set_apart "CPU time (s) = " (summary p r cpu).
Proof. exact summary_glued_refuted. Qed.
Print Assumptions C96_set_apart_refuted.

Example C96_met : plain_text demo_printer /\ summary demo_printer demo_result (Z2f 7) =
  tab ++ "NFVALS = 40 F = 4503599627370496p-52CPU time (s) = 7881299347898368p-50" ++ newline ++ tab ++ "X = 2" ++
  newline ++ tab ++ "Settings: {...}" ++ newline ++ tab ++ "History best cost per iteration: [2 costs]".
Proof. exact (conj demo_plain demo_summary). Qed.
