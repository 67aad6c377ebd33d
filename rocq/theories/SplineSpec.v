(** What scipy.interpolate.CubicSpline(x, y) is documented to return with its default boundary
    condition: the twice continuously differentiable piecewise cubic through the points whose
    third derivative does not jump at the second and the last but one point ("not-a-knot"). *)
From Coq Require Import Reals List.
From Verif Require Import PyBase PPolyModel ThwaitesFitsModel.
Import ListNotations.
Open Scope R_scope.

(** Neighbouring columns agree at their common breakpoint in value, slope and curvature;
    [h] is the width of the left interval. *)
Definition joined (c d : list R) (h : R) : Prop :=
  horner c h = horner d 0 /\
  horner (col_deriv c) h = horner (col_deriv d) 0 /\
  horner (col_deriv (col_deriv c)) h = horner (col_deriv (col_deriv d)) 0.

Record notaknot (xs ys : list R) (p : ppoly) : Prop := {
  nk_x : pp_x p = xs;
  nk_columns : S (length (pp_c p)) = length xs;
  nk_cubic : List.Forall (fun c => length c = 4%nat) (pp_c p);
  nk_values : forall i x y, nth_error xs i = Some x -> nth_error ys i = Some y ->
    pp_eval p x = y;
  nk_smooth : forall i a b c d, nth_error xs i = Some a -> nth_error xs (S i) = Some b ->
    nth_error (pp_c p) i = Some c -> nth_error (pp_c p) (S i) = Some d -> joined c d (b - a);
  nk_start : forall c d r, pp_c p = c :: d :: r -> hd 0 c = hd 0 d;
  nk_end : forall c d r, pp_c p = r ++ [c; d] -> hd 0 c = hd 0 d }.

(** The returned object evaluates the piecewise cubic and its derivative at finite arguments. *)
Definition is_cubic_spline (s : (xr -> xr) * (xr -> xr)) (xs ys : list R) : Prop :=
  exists p, notaknot xs ys p /\
    (forall x, fst s (Fin x) = Fin (pp_eval p x)) /\
    (forall x, snd s (Fin x) = Fin (pp_eval (pp_derivative p) x)).

(** scipy behaves as documented on the two tables of the default data fit. *)
Definition cubic_spline_ok (cs : list R -> list R -> (xr -> xr) * (xr -> xr)) : Prop :=
  is_cubic_spline (cs tab_lambda tab_shear) tab_lambda tab_shear /\
  is_cubic_spline (cs tab_lambda tab_shape) tab_lambda tab_shape.
