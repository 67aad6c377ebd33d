(** Piecewise polynomials as used by [IBLMethod.set_velocity] when the velocity is given by
    points (ibl/ibl_method.py:472-513).  They are scipy.interpolate.PPoly objects; the parts
    of PPoly the library calls are modelled here over exact reals: evaluation (with the
    default extrapolation), derivative and antiderivative.  How PchipInterpolator chooses
    the coefficients: see PchipModel.v. *)
From Coq Require Import Reals List.
Import ListNotations.
Open Scope R_scope.

(** [pp_x] = PPoly.x (breakpoints); [pp_c] = columns of PPoly.c, one list of
    coefficients per interval, highest power first. *)
Record ppoly := { pp_x : list R; pp_c : list (list R) }.

(** Horner evaluation of one column at a local coordinate. *)
Definition horner (c : list R) (t : R) : R := fold_left (fun acc a => acc * t + a) c 0.

(** PPoly.__call__ with extrapolate=True: the first interval whose right end is beyond x,
    otherwise the last interval. *)
Fixpoint pp_eval_aux (xs : list R) (cs : list (list R)) (x : R) : R :=
  match xs, cs with
  | x0 :: xs', c :: cs' =>
      match xs', cs' with
      | x1 :: _, _ :: _ => if Rlt_dec x x1 then horner c (x - x0) else pp_eval_aux xs' cs' x
      | _, _ => horner c (x - x0)
      end
  | _, _ => 0
  end.
Definition pp_eval (p : ppoly) (x : R) : R := pp_eval_aux (pp_x p) (pp_c p) x.

(** PPoly.derivative(1): each column loses its constant and is scaled.  (A constant column
    becomes empty instead of a zero row; both evaluate to 0.) *)
Fixpoint col_deriv (c : list R) : list R :=
  match c with
  | [] => []
  | a :: r => match r with [] => [] | _ => INR (length r) * a :: col_deriv r end
  end.
Definition pp_derivative (p : ppoly) : ppoly :=
  {| pp_x := pp_x p; pp_c := map col_deriv (pp_c p) |}.
(** PPoly.derivative(nu), as the iterate of derivative(1). *)
Fixpoint pp_derivative_n (nu : nat) (p : ppoly) : ppoly :=
  match nu with O => p | S k => pp_derivative_n k (pp_derivative p) end.

(** PPoly.antiderivative(1): columns are integrated, then the constants are fixed so that
    the result is continuous and vanishes at the first breakpoint. *)
Fixpoint col_integ (c : list R) : list R :=
  match c with [] => [] | a :: r => a / INR (S (length r)) :: col_integ r end.
Fixpoint antideriv_cols (start : R) (xs : list R) (cs : list (list R)) : list (list R) :=
  match xs, cs with
  | x0 :: xs', c :: cs' =>
      let col := col_integ c ++ [start] in
      match xs' with
      | x1 :: _ => col :: antideriv_cols (horner col (x1 - x0)) xs' cs'
      | [] => [col]
      end
  | _, _ => []
  end.
Definition pp_antiderivative (p : ppoly) : ppoly :=
  {| pp_x := pp_x p; pp_c := antideriv_cols 0 (pp_x p) (pp_c p) |}.

(** [pchipa.c[-1, :] = pchipa.c[-1, :] + u_e] (ibl/ibl_method.py:480): the constant of
    every column is shifted. *)
Fixpoint col_add_last (c : list R) (v : R) : list R :=
  match c with
  | [] => []
  | a :: r => match r with [] => [a + v] | _ => a :: col_add_last r v end
  end.
Definition pp_shift (p : ppoly) (v : R) : ppoly :=
  {| pp_x := pp_x p; pp_c := map (fun c => col_add_last c v) (pp_c p) |}.
