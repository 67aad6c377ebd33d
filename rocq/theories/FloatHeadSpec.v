(** Vocabulary for the statements about Head's method in binary64 (C158). *)
From Coq Require Import Reals.
From Flocq Require Import Core IEEE754.BinarySingleNaN.
From Verif Require Import FloatModel FloatSpec FloatThwaitesSpec FloatStanfordSpec.
Open Scope R_scope.

(** The C library raises to a power with an error of at most 2 units of 2^-53. *)
Definition powers (pw : b64 -> b64 -> b64) : Prop := forall x y, is_number x -> is_number y -> 0 < real_of x ->
  Rabs (real_of y * ln (real_of x)) <= 200 -> units (pw x y) (Rpower (real_of x) (real_of y)) 2.

(** Ludwieg and Tillman's skin friction. *)
Definition friction (re h : R) : R := (246/1000) / (Rpower re (268/1000) * Rpower 10 (678/1000 * h)).
(** The entrainment shape factor, its derivative, and the entrainment velocity over the edge velocity. *)
Definition entrainment (h : R) : R :=
  if Rle_dec h (16/10) then 33/10 + (8234/10000) / Rpower (h - 11/10) (1287/1000)
  else 332254659218600974/100000000000000000 + (15501/10000) / Rpower (h - 6778/10000) (3064/1000).
Definition entrainment_slope (h : R) : R :=
  if Rle_dec h (16/10) then - (8234/10000) * (1287/1000) / Rpower (h - 11/10) (1287/1000 + 1)
  else - (15501/10000) * (3064/1000) / Rpower (h - 6778/10000) (3064/1000 + 1).
Definition entrainment_rate (h1 : R) : R := (306/10000) / Rpower (h1 - 3) (6169/10000).

(** The rates of change of the momentum thickness and of the shape factor. *)
Definition momentum_rate (nu u du d h : R) : R := 5/10 * friction (u * d / nu) h - d * (2 + h) * du / u.
Definition shape_rate (nu u du d h : R) : R :=
  (u * entrainment_rate (entrainment h) - u * momentum_rate nu u du d h * entrainment h - du * d * entrainment h)
  / (entrainment_slope h * u * d).

(** The same sums with the magnitude of each term. *)
Definition momentum_size (nu u du d h : R) : R := 5/10 * friction (u * d / nu) h + Rabs (d * (2 + h) * du / u).
Definition shape_size (nu u du d h : R) : R :=
  (u * entrainment_rate (entrainment h) + u * momentum_size nu u du d h * entrainment h + Rabs (du * d * entrainment h))
  / Rabs (entrainment_slope h * u * d).

(** The shape factor and the edge velocity actually used. *)
Definition shape_used (h : R) : R := Rmax (111/100) h.
Definition speed_used (u : R) : R := Rmax (1/1000) u.
