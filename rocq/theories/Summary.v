(** The text of a result (eda_result.py:38-42). *)
From Coq Require Import String Ascii List ZArith Bool Lia DecimalString.
From Verif Require Import PyBase B64 NdArray Eda.
Import ListNotations.
Open Scope string_scope.

(** The character [\t] (eda_result.py:38-42). *)
Definition tab : string := String "009"%char "".
(** The character [\n] (eda_result.py:38-42). *)
Definition newline : string := String "010"%char "".

(** How Python's [str] writes the values: integers, floats, the best individual, the
    settings and the list of costs.  The characters are not modelled. *)
Record printer := mkPrinter {
  str_int : Z -> string;
  str_float : f64 -> string;
  str_ind : bind -> string;
  str_settings : dict -> string;
  str_history : list f64 -> string
}.

(** [EdaResult.__str__] (eda_result.py:38-42); the cpu time is an argument because [result]
    does not record it. *)
Definition summary (p : printer) (r : result) (cpu : f64) : string :=
  tab ++ "NFVALS = " ++ str_int p (r_nfev r) ++ " F = " ++ str_float p (r_best_cost r) ++ "CPU time (s) = " ++
  str_float p cpu ++ newline ++ tab ++ "X = " ++ str_ind p (r_best_ind r) ++
  newline ++ tab ++ "Settings: " ++ str_settings p (r_settings r) ++
  newline ++ tab ++ "History best cost per iteration: " ++ str_history p (r_history r).

(* ---------------- vocabulary ---------------- *)
(** The character does not occur in the text. *)
Fixpoint absent (a : ascii) (s : string) : Prop :=
  match s with EmptyString => True | String b s' => a <> b /\ absent a s' end.
(** Numerals contain no blank, no capital C and no line break; an individual may be written
    on several lines, without tabs; settings are written on one line. *)
Definition plain_text (p : printer) : Prop :=
  (forall z, absent " " (str_int p z)) /\
  (forall x, absent "C" (str_float p x) /\ absent "010" (str_float p x)) /\
  (forall b, absent "009" (str_ind p b)) /\
  (forall d, absent "010" (str_settings p d)).
(** A text written with a blank, tab or line break before every occurrence of the label. *)
Definition blank (a : ascii) : bool := Ascii.eqb a " " || Ascii.eqb a "009" || Ascii.eqb a "010".
(** The label is separated from what precedes it.  Not code: used in a statement. *)
Definition set_apart (label text : string) : Prop :=
  forall a u v, text = u ++ String a (label ++ v) -> blank a = true.

(* ---------------- lemmas ---------------- *)
Lemma split_at a : forall s s' t t', absent a s -> absent a s' -> s ++ String a t = s' ++ String a t' -> s = s' /\ t = t'.
Proof.
  induction s as [|b s IH]; intros [|b' s'] t t' H H' E; cbn [append absent] in *.
  - injection E as E. auto.
  - injection E as E1 E2. destruct H' as [N _]. congruence.
  - injection E as E1 E2. destruct H as [N _]. congruence.
  - injection E as E1 E2. destruct (IH s' t t' (proj2 H) (proj2 H') E2) as [-> ->]. subst b'. auto.
Qed.
Lemma absent_app a s s' : absent a s -> absent a s' -> absent a (s ++ s').
Proof. induction s as [|b s IH]; cbn [append absent]; intros H H'; [exact H'|]. split; [apply H|apply IH; [apply H|exact H']]. Qed.
Lemma append_assoc (a b d : string) : (a ++ b) ++ d = a ++ (b ++ d).
Proof. induction a as [|x a IH]; cbn [append]; [reflexivity|]. rewrite IH. reflexivity. Qed.
Lemma newline_end s s' : s ++ newline = s' ++ newline -> s = s'.
Proof.
  revert s'. induction s as [|b s IH]; intros [|b' s'] E; cbn [append newline] in E.
  - reflexivity.
  - exfalso. injection E as E1 E2. destruct s'; discriminate E2.
  - exfalso. injection E as E1 E2. destruct s; discriminate E2.
  - injection E as E1 E2. rewrite (IH s' E2). subst b'. reflexivity.
Qed.

Lemma summary_read p r r' cpu cpu' : plain_text p -> summary p r cpu = summary p r' cpu' ->
  str_int p (r_nfev r) = str_int p (r_nfev r') /\
  str_float p (r_best_cost r) = str_float p (r_best_cost r') /\
  str_float p cpu = str_float p cpu' /\
  str_ind p (r_best_ind r) = str_ind p (r_best_ind r') /\
  str_settings p (r_settings r) = str_settings p (r_settings r') /\
  str_history p (r_history r) = str_history p (r_history r').
Proof.
  intros (HI & HF & HB & HS) E. unfold summary in E. cbn [tab append] in E.
  injection E as E.
  apply (split_at " ") in E as [E1 E]; [|apply HI|apply HI]. injection E as E.
  apply (split_at "C") in E as [E2 E]; [|apply HF|apply HF]. injection E as E.
  cbn [newline append] in E.
  apply (split_at "010") in E as [E3 E]; [|apply HF|apply HF]. injection E as E.
  assert (E' : (str_ind p (r_best_ind r) ++ newline) ++ String "009" ("Settings: " ++ str_settings p (r_settings r) ++
                  newline ++ tab ++ "History best cost per iteration: " ++ str_history p (r_history r)) =
               (str_ind p (r_best_ind r') ++ newline) ++ String "009" ("Settings: " ++ str_settings p (r_settings r') ++
                  newline ++ tab ++ "History best cost per iteration: " ++ str_history p (r_history r'))).
  { rewrite !append_assoc. exact E. }
  clear E. assert (Hn : absent "009" newline) by (cbn; split; [discriminate|exact I]).
  apply (split_at "009") in E' as [E4 E]; [|apply absent_app; [apply HB|exact Hn]..].
  apply newline_end in E4. cbn [append] in E. injection E as E. cbn [newline append] in E.
  apply (split_at "010") in E as [E5 E]; [|apply HS|apply HS]. cbn [tab append] in E. injection E as E.
  repeat (split; [assumption|]). exact E.
Qed.

(** What comes before the label of the cpu time. *)
Lemma summary_cost p r cpu :
  exists u v, summary p r cpu = u ++ str_float p (r_best_cost r) ++ "CPU time (s) = " ++ v.
Proof.
  exists (tab ++ "NFVALS = " ++ str_int p (r_nfev r) ++ " F = "). eexists.
  unfold summary. rewrite !append_assoc. cbn [append]. reflexivity.
Qed.
Lemma not_set_apart p r cpu a s : str_float p (r_best_cost r) = s ++ String a "" -> blank a = false ->
  ~ set_apart "CPU time (s) = " (summary p r cpu).
Proof.
  intros Hs Ha H. destruct (summary_cost p r cpu) as (u & v & E). rewrite Hs in E.
  specialize (H a (u ++ s) v). rewrite E, !append_assoc in H. cbn [append] in H. specialize (H eq_refl). congruence.
Qed.

(** A printer: integers in decimal; a float as its sign, significand and exponent. *)
Definition dec_str (z : Z) : string := NilEmpty.string_of_int (Z.to_int z).
(** One way of writing numbers.  Not code: an example. *)
Definition demo_printer : printer := {|
  str_int := dec_str;
  str_float := fun x => match x with
                        | BinarySingleNaN.B754_zero s => if s then "-0.0" else "0.0"
                        | BinarySingleNaN.B754_infinity s => if s then "-inf" else "inf"
                        | BinarySingleNaN.B754_nan => "nan"
                        | BinarySingleNaN.B754_finite s m e _ => (if s then "-" else "") ++ dec_str (Zpos m) ++ "p" ++ dec_str e
                        end;
  str_ind := fun b => match b with BIdx i => dec_str (Z.of_nat i) | BRow _ => "[...]" end;
  str_settings := fun _ => "{...}";
  str_history := fun l => "[" ++ dec_str (Z.of_nat (List.length l)) ++ " costs]"
|}.
(** Not a blank, a tab, a line break or a capital C.  Not code. *)
Definition digit_like (a : ascii) : Prop := a <> " "%char /\ a <> "C"%char /\ a <> "009"%char /\ a <> "010"%char.
(** Every character is of that kind.  Not code. *)
Fixpoint all_digits (s : string) : Prop := match s with EmptyString => True | String a s' => digit_like a /\ all_digits s' end.
Lemma uint_digits d : all_digits (NilEmpty.string_of_uint d).
Proof. induction d as [|d IH|d IH|d IH|d IH|d IH|d IH|d IH|d IH|d IH|d IH]; cbn; [exact I|..]; (split; [repeat split; discriminate|exact IH]). Qed.
Lemma dec_digits z : all_digits (dec_str z).
Proof.
  unfold dec_str. destruct (Z.to_int z) as [d|d]; cbn [NilEmpty.string_of_int]; [apply uint_digits|].
  cbn [all_digits]. split; [repeat split; discriminate|apply uint_digits].
Qed.
Lemma digits_app s s' : all_digits s -> all_digits s' -> all_digits (s ++ s').
Proof. induction s as [|a s IH]; cbn [append all_digits]; intros H H'; [exact H'|]. split; [apply H|apply IH; [apply H|exact H']]. Qed.
Lemma digits_absent s a : all_digits s -> ~ digit_like a -> absent a s.
Proof.
  induction s as [|b s IH]; cbn [all_digits absent]; intros H N; [exact I|]. split; [|apply IH; [apply H|exact N]].
  intros ->. apply N, H.
Qed.
Lemma demo_plain : plain_text demo_printer.
Proof.
  assert (HB : ~ digit_like " ") by (intros (A & B & D & E); congruence).
  assert (HC : ~ digit_like "C") by (intros (A & B & D & E); congruence).
  assert (HT : ~ digit_like "009") by (intros (A & B & D & E); congruence).
  assert (HN : ~ digit_like "010") by (intros (A & B & D & E); congruence).
  split; [intros z; apply digits_absent; [apply dec_digits|exact HB]|]. split.
  - intros x. assert (D : all_digits (str_float demo_printer x)).
    { destruct x as [[]|[]| |s m e Hb]; cbn [str_float demo_printer].
      1-5: cbn [all_digits]; repeat (split; [repeat split; discriminate|]); exact I.
      apply digits_app; [destruct s; cbn [all_digits]; [split; [repeat split; discriminate|exact I]|exact I]|].
      apply digits_app; [apply dec_digits|]. cbn [append all_digits]. split; [repeat split; discriminate|apply dec_digits]. }
    split; apply digits_absent; assumption.
  - split.
    + intros [i|r]; cbn [str_ind demo_printer]; [apply digits_absent; [apply dec_digits|exact HT]|].
      cbn [absent]. repeat (split; [discriminate|]). exact I.
    + intros d. cbn [str_settings demo_printer absent]. repeat (split; [discriminate|]). exact I.
Qed.
(** A result.  Not code: an example. *)
Definition demo_result : result := mkResult (BIdx 2) (Z2f 1) 40 [Z2f 3; Z2f 1] [].
Lemma demo_glued : exists s, str_float demo_printer (r_best_cost demo_result) = s ++ String "2" "".
Proof. exists "4503599627370496p-5". vm_compute. reflexivity. Qed.
Lemma summary_glued_refuted : exists p r cpu, plain_text p /\ ~ set_apart "CPU time (s) = " (summary p r cpu).
Proof.
  exists demo_printer, demo_result, (Z2f 7). split; [exact demo_plain|].
  destruct demo_glued as [s Hs]. apply (not_set_apart _ _ _ "2" s Hs). reflexivity.
Qed.
(** The other labels. *)
Lemma demo_summary : summary demo_printer demo_result (Z2f 7) =
  tab ++ "NFVALS = 40 F = 4503599627370496p-52CPU time (s) = 7881299347898368p-50" ++ newline ++ tab ++ "X = 2" ++
  newline ++ tab ++ "Settings: {...}" ++ newline ++ tab ++ "History best cost per iteration: [2 costs]".
Proof. vm_compute. reflexivity. Qed.
