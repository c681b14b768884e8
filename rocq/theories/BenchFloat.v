(** EDAspy/benchmarks/continuous.py in binary64 arithmetic.

    The arguments are float64 arrays.  Every operation of the source is rounded; what the C
    library and numpy compute for squares, powers, cos, sin and exp is a parameter.
    [sum] adds from left to right starting from 0. *)
From Coq Require Import List ZArith Bool.
From Flocq Require Import Core.Zaux IEEE754.BinarySingleNaN.
From Verif Require Import PyBase B64.
Import ListNotations.
Local Open Scope res_scope.

(** v**2, b**e, np.cos, np.sin, np.exp, and round() of a finite float (as a float). *)
Record libm := mkLibm {
  m_sq : f64 -> f64; m_pow : f64 -> f64 -> f64; m_cos : f64 -> f64; m_sin : f64 -> f64; m_exp : f64 -> f64;
  m_round : f64 -> f64
}.
(** [abs(x)]. *)
Definition fabs (x : f64) : f64 := Babs x.
(** [0.5]. *)
Definition half : f64 := lit 1 (-1).
(** np.pi and np.e *)
Definition np_pi : f64 := lit 0x1921fb54442d18 (-51).
(** [np.e]. *)
Definition np_e : f64 := lit 0x15bf0a8b145769 (-51).

(** [x[i]]. *)
Definition getf (i : nat) (x : list f64) : f64 := nth i x fzero.
(** An int used as a float. *)
Definition nat_f (n : nat) : f64 := Z2f (Z.of_nat n).
(** [result = a; for i in l: result += f(i)]. *)
Definition addf (a : f64) (f : nat -> f64) (l : list nat) : f64 := fold_left (fun r i => fadd r (f i)) l a.
(** [range(a, b)]. *)
Definition span (a b : nat) : list nat := seq a (b - a).
(** x[i] is evaluated for every i < d *)
Definition reads_f (d : nat) (x : list f64) (r : f64) : res f64 := if Nat.leb d (length x) then Ok r else Raise IndexError.

(** [z % m] for a finite m > 0 (numpy's remainder): the exact remainder, which has the sign
    of m, rounded; NaN when z is not finite. *)
Definition frem (z m : f64) : f64 :=
  match z, m with
  | B754_zero _, _ => fzero
  | B754_finite s mz ez _, B754_finite _ mm em _ =>
      let e := Z.min ez em in
      lit ((cond_Zopp s (Zpos mz) * 2 ^ (ez - e)) mod (Zpos mm * 2 ^ (em - e))) e
  | _, _ => B754_nan
  end.

Section Functions.
Variable (m : libm).

(** bent_cigar_function (52-64) *)
Definition bent_cigar_f (d : nat) (x : list f64) : res f64 :=
  let result := addf (m_sq m (getf 0 x)) (fun i => m_sq m (getf i x)) (span 1 d) in
  reads_f d x (fadd result (fmul result (Z2f 1000000))).
(** discuss_function (66-77) *)
Definition discus_f (d : nat) (x : list f64) : res f64 :=
  reads_f d x (addf (fmul (Z2f 1000000) (m_sq m (getf 0 x))) (fun i => m_sq m (getf i x)) (span 1 d)).
(** rosenbrock_function (79-90); nothing is read when d = 1 *)
Definition rosenbrock_f (d : nat) (x : list f64) : res f64 :=
  let r := addf fzero (fun i => fadd (fmul (Z2f 100) (m_sq m (fsub (m_sq m (getf i x)) (getf (i + 1) x))))
                                     (m_sq m (fsub (getf i x) fone))) (span 0 (d - 1)) in
  if Nat.leb d 1 then Ok r else reads_f d x r.
(** ackley_function (92-102) *)
Definition ackley_f (d : nat) (x : list f64) : res f64 :=
  let sum1 := addf fzero (fun i => m_sq m (getf i x)) (span 0 d) in
  let sum2 := addf fzero (fun i => m_cos m (fmul (fmul (getf i x) (Z2f 2)) np_pi)) (span 0 d) in
  let e1 := m_exp m (fmul (fopp (fdiv (Z2f 2) (Z2f 10))) (fsqrt (fdiv sum1 (nat_f d)))) in
  let e2 := m_exp m (fdiv sum2 (nat_f d)) in
  reads_f d x (fadd (fadd (fsub (fmul (Z2f (-20)) e1) e2) (Z2f 20)) np_e).
(** weierstrass_function (104-126); np.power(3, k) is an exact integer *)
Definition weierstrass_f (d : nat) (x : list f64) : res f64 :=
  let power k := m_pow m half (nat_f k) in
  let turns k := fmul (fmul (Z2f 2) np_pi) (Z2f (3 ^ Z.of_nat k)) in
  let aux_f1 i := addf fzero (fun k => fmul (power k) (m_cos m (fmul (turns k) (fadd (getf i x) half)))) (span 0 20) in
  let aux_f2 := addf fzero (fun k => fmul (power k) (m_cos m (fmul (turns k) half))) (span 0 20) in
  reads_f d x (addf fzero (fun i => fsub (aux_f1 i) (fmul (nat_f d) aux_f2)) (span 0 d)).
(** griewank_function (128-142) *)
Definition griewank_f (d : nat) (x : list f64) : res f64 :=
  let f := addf fzero (fun i => fdiv (m_sq m (getf i x)) (Z2f 4000)) (span 0 d) in
  let aux := fold_left (fun aux i => fmul aux (fadd (m_cos m (fdiv (getf (i - 1) x) (fsqrt (nat_f i)))) fone)) (span 1 d) fzero in
  reads_f d x (fsub f aux).
(** rastrigins_function (144-155): loops over all of x *)
Definition rastrigin_f (x : list f64) : f64 :=
  addf fzero (fun i => fadd (fsub (m_sq m (getf i x)) (fmul (Z2f 10) (m_cos m (fmul (fmul (Z2f 2) np_pi) (getf i x))))) (Z2f 10))
       (span 0 (length x)).
(** high_conditioned_elliptic_function (157-161): loops over all of x; 0/0 raises *)
Definition elliptic_f (x : list f64) : res f64 :=
  if Nat.eqb (length x) 1 then Raise ZeroDivisionError
  else Ok (addf fzero (fun i => fmul (m_pow m (Z2f 1000000) (fdiv (nat_f (i - 1)) (nat_f (length x - 1)))) (m_sq m (getf (i - 1) x)))
                (span 1 (length x + 1))).
(** _mod_sch_f (9-15); a NaN meets none of the three conditions and None is returned *)
Definition mod_sch_g (z : f64) (dim : nat) : option f64 :=
  let five := Z2f 500 in
  if fle (fabs z) five then Some (fmul z (m_sin m (m_pow m (fabs z) half)))
  else if flt five z then
    Some (fsub (fmul (fsub five (frem z five)) (m_sin m (fsqrt (fabs (fsub five (frem z five))))))
               (fmul (fdiv (m_sq m (fsub z five)) (Z2f 10000)) (nat_f dim)))
  else if flt z (fopp five) then
    Some (fsub (fmul (fsub (frem z five) five) (m_sin m (fsqrt (fabs (fsub (frem (fabs z) five) five)))))
               (fmul (fdiv (m_sq m (fadd z five)) (Z2f 10000)) (nat_f dim)))
  else None.
(** mod_schwefels_function (163-175): loops over all of x; subtracting None raises *)
Definition mod_schwefel_f (x : list f64) : res f64 :=
  fold_left (fun r i => result <-? r ;
               match mod_sch_g (fadd (getf (i - 1) x) (fdiv (Z2f 4209687462275036) (Z2f (10 ^ 13)))) (length x) with
               | Some v => Ok (fsub result v)
               | None => Raise TypeError
               end)
            (span 1 (length x + 1)) (Ok (fmul (fdiv (Z2f 4189829) (Z2f 10000)) (nat_f (length x)))).
(** katsuura_function (177-192); round() of an infinity or NaN raises; a number that is
    missing from [x] is reached after the exceptions of those before it *)
Definition katsuura_f (d : nat) (x : list f64) : res f64 :=
  let arg i j := fmul (getf (i - 1) x) (Z2f (2 ^ Z.of_nat j)) in
  let aux2 i := addf fzero (fun j => fdiv (fabs (fsub (arg i j) (m_round m (arg i j)))) (Z2f (2 ^ Z.of_nat j))) (span 1 32) in
  let e := fdiv (Z2f 10) (m_pow m (nat_f d) (fdiv (Z2f 12) (Z2f 10))) in
  let aux := fold_left (fun aux i => fmul aux (m_pow m (fadd fone (fmul (nat_f i) (aux2 i))) e)) (span 1 (d + 1)) fone in
  let q := fdiv (Z2f 10) (nat_f (d * d)) in
  match find (fun v => negb (isfin v)) (flat_map (fun i => map (arg i) (span 1 32)) (span 1 (d + 1))) with
  | Some v => Raise (if isnan v then ValueError else OverflowError)
  | None => reads_f d x (fsub (fmul aux q) q)
  end.
(** happycat_function (194-205) *)
Definition happycat_f (d : nat) (x : list f64) : res f64 :=
  let a := addf fzero (fun i => m_sq m (getf (i - 1) x)) (span 1 (d + 1)) in
  let b := addf fzero (fun i => getf (i - 1) x) (span 1 (d + 1)) in
  let result := m_pow m (fabs (fsub a (nat_f d))) (lit 1 (-2)) in
  reads_f d x (fadd result (fadd (fdiv (fadd (fmul half a) b) (nat_f d)) half)).
(** hgbat_function (207-218) *)
Definition hgbat_f (d : nat) (x : list f64) : res f64 :=
  let a := addf fzero (fun i => m_sq m (getf (i - 1) x)) (span 1 (d + 1)) in
  let b := addf fzero (fun i => getf (i - 1) x) (span 1 (d + 1)) in
  reads_f d x (fadd (fadd (m_pow m (fabs (fsub (m_sq m a) (m_sq m b))) half) (fdiv (fadd (fmul half a) b) (nat_f d))) half).
(** _scaffer_f6_function (18-19) *)
Definition scaffer_f (x y : f64) : f64 :=
  let s := fadd (m_sq m x) (m_sq m y) in
  fadd half (fdiv (fsub (m_sq m (m_sin m (fsqrt s))) half) (m_sq m (fadd fone (fmul (fdiv fone (Z2f 1000)) s)))).
(** expanded_scaffer_f6_function (220-230) *)
Definition expanded_scaffer_f (d : nat) (x : list f64) : res f64 :=
  reads_f d x (fadd (addf fzero (fun i => scaffer_f (getf (i - 1) x) (getf i x)) (span 1 d)) (scaffer_f (getf (d - 1) x) (getf 0 x))).
End Functions.
