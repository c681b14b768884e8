(** Concrete runs: scripted generations, used to show that hypotheses can be met and as
    witnesses of refutations. *)
From Coq Require Import String List ZArith Bool.
From Verif Require Import PyBase B64 NdArray Eda EdaInv Spec LoopPar.
Import ListNotations.

(** A column of floats: a generation of one-variable individuals. *)
Definition col (l : list f64) : arr := mkArr DFloat 1%nat (map (fun x => [CF x]) l).
Open Scope Z_scope.
Definition ints (l : list Z) : list f64 := map Z2f l.

(** The cost of an individual is its first variable. *)
Definition first_cell (r : row) : num :=
  match r with
  | CF x :: _ => NF x
  | CI z :: _ => NI z
  | _ => NF fnan
  end.

(** The world is the list of generations that initialiser and model will produce. *)
Definition pop (w : list arr) : res arr * list arr :=
  match w with
  | [] => (Raise (UserExn 0), [])
  | g :: w' => (Ok g, w')
  end.

Definition scripted (cost : row -> num) (cores : nat) : hooks unit (list arr) := {|
  h_argsort := argsort_ref;
  h_cost := fun r w => (Ok (cost r), w);
  h_pool := mkPool (cores - 1)%nat (fun i => i) (fun _ => 0%nat);
  h_normal := fun _ w => (fun _ _ => fone, w);
  h_init := pop;
  h_data := fun g _ p => (Ok g, p);
  h_learn := fun _ p w => (Ok tt, (p, w));
  h_sample := fun _ w => pop w;
  h_settings := []
|}.

(** The optimiser object before its first minimize. *)
Definition new_obj : obj := mkObj (mkArr DFloat 0%nat []) [] (mkArr DFloat 0%nat []) [] (Z2f 0) (BIdx 0%nat).
Definition start {S W} (p : S) (w : W) : st S W := mkSt new_obj p w [].

Definition cfg_or (r : res cfg) : cfg :=
  match r with Ok c => c | Raise _ => mkCfg 0 0 0 0 (PyI 0) (PyI 0) false false None (PyI 0) 0 0 end.

(** size_gen, max_iter, dead_iter, one variable, alpha = elite_factor = 1/2. *)
Definition conf (size_gen max_iter dead_iter : Z) (par : bool) (init : option arr) (w : option pynum) : cfg :=
  cfg_or (eda_init size_gen max_iter dead_iter 1 (PyF (lit 1 (-1))) (PyF (lit 1 (-1))) true par init w).

(** The decimal literal [m / 10^k]: correctly rounded as long as both are exact doubles. *)
Definition dec (m k : Z) : f64 := fdiv (Z2f m) (Z2f (10 ^ k)).

(** The default tolerance of minimize, 1e-8. *)
Definition ftol_default : f64 := dec 1 8.

(** Run and test the outcome. *)
Definition run_check {S W} (c : cfg) (h : hooks S W) (ftol : f64) (out : bool) (s : st S W)
           (P : result -> list ev -> bool) : bool :=
  match minimize c h ftol out s with
  | (Ok r, s') => P r (s_tr s')
  | (Raise _, _) => false
  end.

Lemma run_check_completes {S W} (c : cfg) (h : hooks S W) ftol out s P :
  s_tr s = [] -> run_check c h ftol out s P = true ->
  exists r tr, completes c h ftol out s r tr /\ P r tr = true.
Proof.
  unfold run_check. intros Htr H. destruct (minimize c h ftol out s) as [[r|e] s'] eqn:E; [|discriminate].
  exists r, (s_tr s'). split; [|exact H]. split; [exact Htr|]. exists s'. split; [exact E|reflexivity].
Qed.

Definition raises {S W} (c : cfg) (h : hooks S W) (ftol : f64) (out : bool) (s : st S W) (e : exn) : Prop :=
  exists s', minimize c h ftol out s = (Raise e, s').

Definition run_raises {S W} (c : cfg) (h : hooks S W) (ftol : f64) (out : bool) (s : st S W) : option exn :=
  match minimize c h ftol out s with
  | (Ok _, _) => None
  | (Raise e, _) => Some e
  end.

Lemma run_raises_ok {S W} (c : cfg) (h : hooks S W) ftol out s e :
  run_raises c h ftol out s = Some e -> raises c h ftol out s e.
Proof.
  unfold run_raises, raises. destruct (minimize c h ftol out s) as [[r|e'] s'] eqn:E; [discriminate|].
  intros H. injection H as <-. exists s'. reflexivity.
Qed.

(** Four generations of four individuals; costs improve, then stagnate. *)
Definition demo_cfg : cfg := conf 4 10 2 false None None.
Definition demo_hooks : hooks unit (list arr) := scripted first_cell 1.
Definition demo_start : st unit (list arr) :=
  start tt [col (ints [5; 3; 4; 6]); col (ints [2; 6; 7; 4]); col (ints [9; 2; 8; 3]); col (ints [4; 4; 4; 5]); col (ints [7; 3; 4; 5])].
Definition demo_neg_start : st unit (list arr) :=
  start tt [col (ints [-5; -3; -4; -1]); col (ints [-6; -6; -7; -2]); col (ints [-2; -2; -1; 0]); col (ints [-4; -4; -7; -7])].
(** With white noise of scale one. *)
Definition demo_noise_cfg : cfg := conf 4 10 2 false None (Some (PyI 1)).

(* Decidable versions of the hypotheses. *)
Definition dtype_eqb (a b : dtype) : bool :=
  match a, b with DInt, DInt | DFloat, DFloat | DObj, DObj => true | _, _ => false end.
Definition one_dtypeb (d : dtype) (tr : list ev) : bool := forallb (fun gv => dtype_eqb (a_dt (fst gv)) d) (gens tr).
Lemma one_dtypeb_ok d tr : one_dtypeb d tr = true -> one_dtype d tr.
Proof.
  unfold one_dtypeb, one_dtype. intros H. apply Forall_forall. intros gv Hin.
  rewrite forallb_forall in H. specialize (H gv Hin). destruct (a_dt (fst gv)), d; try discriminate; reflexivity.
Qed.
Lemma forallb_Forall {A} (p : A -> bool) l : forallb p l = true -> Forall (fun x => p x = true) l.
Proof. rewrite forallb_forall, Forall_forall. auto. Qed.
Lemma existsb_In {A} (p : A -> bool) l : existsb p l = true -> exists x, In x l /\ p x = true.
Proof. apply existsb_exists. Qed.
Definition all_floatsb (tr : list ev) : bool := forallb (fun rv => match snd rv with NF _ => true | NI _ => false end) (calls tr).
Lemma all_floatsb_ok tr : all_floatsb tr = true -> all_float_returns tr.
Proof.
  unfold all_floatsb, all_float_returns. intros H. apply Forall_forall. intros rv Hin.
  rewrite forallb_forall in H. specialize (H rv Hin). destruct (snd rv); [discriminate|eauto].
Qed.
