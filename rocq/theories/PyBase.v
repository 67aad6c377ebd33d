(** Python / numpy values used by every model file.

    [xr] are extended reals: the finite doubles are idealised to exact real numbers (no
    rounding, no overflow, no signed zero), [PInf], [NInf] and [NaN] are the IEEE special
    values.  Operations follow numpy's float64 rules; Python's own float division, which
    raises instead of returning inf/nan, is [py_div]. *)
From Coq Require Import Reals List String Lra.
Import ListNotations.
Open Scope R_scope.

(** Exceptions the library (or the interpreter on its behalf) raises. *)
Inductive exn :=
| ValueError
| TypeError
| IndexError
| ZeroDivisionError
| AttributeError
| OtherError.

(** Outcome of a Python function that may raise. *)
Inductive res (A : Type) :=
| Ok (a : A)
| Err (e : exn).
Arguments Ok {A} a.
Arguments Err {A} e.

Definition bind {A B} (m : res A) (k : A -> res B) : res B :=
  match m with Ok a => k a | Err e => Err e end.

Definition is_ok {A} (m : res A) : bool :=
  match m with Ok _ => true | Err _ => false end.

Inductive xr :=
| Fin (r : R)
| PInf
| NInf
| NaN.

Declare Scope xr_scope.
Delimit Scope xr_scope with xr.
Bind Scope xr_scope with xr.

(** Decisions on reals as booleans (classical, from the standard library). *)
Definition Rltb (a b : R) : bool := if Rlt_dec a b then true else false.
Definition Rleb (a b : R) : bool := if Rle_dec a b then true else false.
Definition Reqb (a b : R) : bool := if Req_EM_T a b then true else false.

(** [a < b], [a <= b], [a == b] of Python floats: false as soon as one side is nan. *)
Definition xltb (a b : xr) : bool :=
  match a, b with
  | NaN, _ | _, NaN => false
  | Fin x, Fin y => Rltb x y
  | Fin _, PInf => true
  | Fin _, NInf => false
  | NInf, NInf => false
  | NInf, _ => true
  | PInf, _ => false
  end.
Definition xleb (a b : xr) : bool :=
  match a, b with
  | NaN, _ | _, NaN => false
  | Fin x, Fin y => Rleb x y
  | Fin _, PInf => true
  | Fin _, NInf => false
  | NInf, _ => true
  | PInf, PInf => true
  | PInf, _ => false
  end.
Definition xeqb (a b : xr) : bool :=
  match a, b with
  | Fin x, Fin y => Reqb x y
  | PInf, PInf => true
  | NInf, NInf => true
  | _, _ => false
  end.

Definition xneg (a : xr) : xr :=
  match a with Fin x => Fin (- x) | PInf => NInf | NInf => PInf | NaN => NaN end.

Definition xadd (a b : xr) : xr :=
  match a, b with
  | NaN, _ | _, NaN => NaN
  | Fin x, Fin y => Fin (x + y)
  | PInf, NInf | NInf, PInf => NaN
  | PInf, _ | _, PInf => PInf
  | NInf, _ | _, NInf => NInf
  end.

Definition xsub (a b : xr) : xr := xadd a (xneg b).

(** [sign * inf]. *)
Definition inf_times (r : R) : xr :=
  if Rlt_dec 0 r then PInf else if Rlt_dec r 0 then NInf else NaN.

Definition xmul (a b : xr) : xr :=
  match a, b with
  | NaN, _ | _, NaN => NaN
  | Fin x, Fin y => Fin (x * y)
  | Fin x, PInf | PInf, Fin x => inf_times x
  | Fin x, NInf | NInf, Fin x => inf_times (- x)
  | PInf, PInf | NInf, NInf => PInf
  | PInf, NInf | NInf, PInf => NInf
  end.

(** numpy division: [x/0] is a signed infinity, [0/0] is nan (the zero is taken as +0). *)
Definition xdiv (a b : xr) : xr :=
  match a, b with
  | NaN, _ | _, NaN => NaN
  | Fin x, Fin y => if Req_EM_T y 0 then inf_times x else Fin (x / y)
  | Fin _, _ => Fin 0
  | PInf, Fin y => if Req_EM_T y 0 then PInf else inf_times y
  | NInf, Fin y => if Req_EM_T y 0 then NInf else inf_times (- y)
  | _, _ => NaN
  end.

(** Python float division raises on a zero denominator. *)
Definition py_div (a b : xr) : res xr :=
  if xeqb b (Fin 0) then Err ZeroDivisionError else Ok (xdiv a b).

Definition xabs (a : xr) : xr :=
  match a with Fin x => Fin (Rabs x) | NaN => NaN | _ => PInf end.

(** np.sqrt: nan (with a warning) on negative input. *)
Definition xsqrt (a : xr) : xr :=
  match a with
  | Fin x => if Rlt_dec x 0 then NaN else Fin (sqrt x)
  | PInf => PInf
  | _ => NaN
  end.

Definition xexp (a : xr) : xr :=
  match a with Fin x => Fin (exp x) | PInf => PInf | NInf => Fin 0 | NaN => NaN end.

(** np.log10: -inf at 0, nan below. *)
Definition xlog10 (a : xr) : xr :=
  match a with
  | Fin x => if Rlt_dec 0 x then Fin (ln x / ln 10)
             else if Rlt_dec x 0 then NaN else NInf
  | PInf => PInf
  | _ => NaN
  end.

(** np.power with a floating exponent. A negative base has a value only for an integral
    exponent. Simplification: powers of -inf are nan. *)
Definition xpow (a b : xr) : xr :=
  match a, b with
  | NaN, _ | _, NaN | NInf, _ => NaN
  | Fin x, Fin y =>
      if Req_EM_T y 0 then Fin 1
      else if Rlt_dec 0 x then Fin (Rpower x y)
      else if Req_EM_T x 0 then (if Rlt_dec 0 y then Fin 0 else PInf)
      else if Req_EM_T (frac_part y) 0 then Fin (powerRZ x (Int_part y))
      else NaN
  | Fin x, PInf => if Rlt_dec 1 (Rabs x) then PInf
                   else if Rlt_dec (Rabs x) 1 then Fin 0 else Fin 1
  | Fin x, NInf => if Rlt_dec 1 (Rabs x) then Fin 0
                   else if Rlt_dec (Rabs x) 1 then PInf else Fin 1
  | PInf, Fin y => if Req_EM_T y 0 then Fin 1
                   else if Rlt_dec 0 y then PInf else Fin 0
  | PInf, PInf => PInf
  | PInf, NInf => Fin 0
  end.

(** np.maximum / np.minimum / np.clip propagate nan. *)
Definition xmax (a b : xr) : xr :=
  match a, b with
  | NaN, _ | _, NaN => NaN
  | _, _ => if xltb a b then b else a
  end.
Definition xmin (a b : xr) : xr :=
  match a, b with
  | NaN, _ | _, NaN => NaN
  | _, _ => if xltb b a then b else a
  end.
Definition xclip (x lo hi : xr) : xr := xmin (xmax x lo) hi.

Notation "a + b" := (xadd a b) : xr_scope.
Notation "a - b" := (xsub a b) : xr_scope.
Notation "a * b" := (xmul a b) : xr_scope.
Notation "a / b" := (xdiv a b) : xr_scope.
Notation "- a" := (xneg a) : xr_scope.

Definition is_fin (a : xr) : bool := match a with Fin _ => true | _ => false end.
