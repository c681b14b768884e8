(** Concrete runs that start from an int init_data and continue with float generations. *)
From Coq Require Import String List ZArith Bool Lia Reals.
From Flocq Require Import IEEE754.BinarySingleNaN.
From Verif Require Import PyBase B64 B64More NdArray Eda EdaInv Spec TopK Select SelectAny LoopPar Demo.
Import ListNotations.
Open Scope nat_scope.

Lemma copy_exact z c : (Z.abs z <= 2 ^ 53)%Z -> cell_copy (CI z) c ->
  c = CI z \/ exists x, c = CF x /\ is_finite x = true /\ B2R x = IZR z.
Proof.
  intros Hz [->|(z' & E & ->)]; [left; reflexivity|]. injection E as <-. right.
  destruct (Z2f_exact z Hz). exists (Z2f z). auto.
Qed.

(** The cost is the first variable, as a float. *)
Definition first_float (r : row) : num :=
  match r with CF x :: _ => NF x | CI z :: _ => NF (Z2f z) | _ => NF fnan end.
Definition mixed_hooks : hooks unit (list arr) := scripted first_float 1.
Definition icol (l : list Z) : arr := mkArr DInt 1 (map (fun z => [CI z]) l).
Definition mixed_start : st unit (list arr) :=
  start tt [icol [5; 3; 4; 6]%Z; col (ints [2; 6; 7; 4]%Z); col (ints [9; 2; 8; 3]%Z); col (ints [4; 4; 4; 5]%Z); col (ints [7; 3; 4; 5]%Z)].
Definition mixed_cfg : cfg := conf 4 10 2 false None None.

Definition mixed_dtypes (l : list dtype) (tr : list ev) : bool :=
  if list_eq_dec (fun a b : dtype => ltac:(decide equality) : {a = b} + {a <> b}) (map (fun gv => a_dt (fst gv)) (gens tr)) l then true else false.

Lemma mixed_runs : argsort_ok (h_argsort mixed_hooks) /\ (0 <= c_trunc_len mixed_cfg)%Z /\ (0 <= c_elite_len mixed_cfg)%Z /\
  exists r tr, completes mixed_cfg mixed_hooks ftol_default true mixed_start r tr /\ all_float_returns tr /\
    map (fun gv => a_dt (fst gv)) (gens tr) = [DInt; DFloat; DFloat; DFloat; DFloat] /\ List.length (selections tr) = 4.
Proof.
  split; [exact argsort_ref_ok|]. split; [vm_compute; discriminate|]. split; [vm_compute; discriminate|].
  destruct (run_check_completes mixed_cfg mixed_hooks ftol_default true mixed_start
     (fun _ tr => all_floatsb tr && mixed_dtypes [DInt; DFloat; DFloat; DFloat; DFloat] tr && Nat.eqb (List.length (selections tr)) 4)) as (r & tr & H & Hb);
    [reflexivity|vm_compute; reflexivity|].
  apply andb_true_iff in Hb as [Hb H3]. apply andb_true_iff in Hb as [H1 H2].
  exists r, tr. split; [exact H|]. split; [apply all_floatsb_ok, H1|]. split; [|apply Nat.eqb_eq, H3].
  unfold mixed_dtypes in H2. destruct (list_eq_dec _ _ _); [assumption|discriminate].
Qed.

(** init_data 2^53 + 1 in an int array. *)
Definition big_start : st unit (list arr) :=
  start tt [icol [2 ^ 53 + 1; 2 ^ 53 + 7]%Z; col (ints [2 ^ 60; 2 ^ 61]%Z); col (ints [2 ^ 60; 2 ^ 61]%Z); col (ints [2 ^ 60; 2 ^ 61]%Z)].
Definition big_cfg : cfg := conf 2 3 2 false None None.

Definition off_x (x : f64) (rv : row * num) : bool :=
  match fst rv with
  | [CI z] => negb (Z.eqb z (2 ^ 53))
  | [CF y] => is_finite y && negb (feq x y)
  | _ => false
  end.
Definition big_event (tr : list ev) (e : ev) : bool :=
  match e with
  | EvSelect _ [([CF x], v)] => is_finite x && feq x (Z2f (2 ^ 53)) && forallb (off_x x) (calls tr)
  | _ => false
  end.

Lemma big_int_run : exists c (s : st unit (list arr)) r tr train x v,
  argsort_ok (h_argsort mixed_hooks) /\ (0 <= c_trunc_len c)%Z /\ (0 <= c_elite_len c)%Z /\
  completes c mixed_hooks ftol_default true s r tr /\
  In (EvSelect train [([CF x], v)]) tr /\ is_finite x = true /\
  Forall (fun rv => match fst rv with
    | [CI z] => B2R x <> IZR z
    | [CF y] => B2R x <> B2R y
    | _ => False
    end) (calls tr).
Proof.
  destruct (run_check_completes big_cfg mixed_hooks ftol_default true big_start
     (fun _ tr => existsb (big_event tr) tr)) as (r & tr & H & Hb); [reflexivity|vm_compute; reflexivity|].
  apply existsb_In in Hb as (e & Hin & Hb). unfold big_event in Hb.
  destruct e as [| |t el| |]; try discriminate. destruct el as [|[[|[z|x|z] [|]] v] [|]]; try discriminate.
  apply andb_true_iff in Hb as [Hb H3]. apply andb_true_iff in Hb as [H1 H2].
  exists big_cfg, big_start, r, tr, t, x, v.
  split; [exact argsort_ref_ok|]. split; [vm_compute; discriminate|]. split; [vm_compute; discriminate|].
  split; [exact H|]. split; [exact Hin|]. split; [exact H1|].
  destruct (Z2f_exact (2 ^ 53)) as [E F]; [vm_compute; discriminate|].
  assert (Ex : B2R x = IZR (2 ^ 53)).
  { rewrite <- E. apply feq_fin; assumption. }
  apply forallb_Forall in H3. eapply Forall_impl; [|exact H3]. intros [rv n] Hr. unfold off_x in Hr. cbn [fst] in *.
  destruct rv as [|[z|y|z] [|]]; try discriminate.
  - apply negb_true_iff, Z.eqb_neq in Hr. rewrite Ex. intros Hz. apply Hr. symmetry. apply eq_IZR, Hz.
  - apply andb_true_iff in Hr as [Fy Hy]. apply negb_true_iff in Hy. intros Hxy.
    assert (feq x y = true) by (apply feq_fin; assumption). congruence.
Qed.
