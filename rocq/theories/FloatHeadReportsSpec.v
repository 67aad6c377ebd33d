(** Vocabulary for C176. *)
From Coq Require Import Reals.
From Verif Require Import FloatHeadSpec.
Open Scope R_scope.

(** The transpiration velocity [d(u h d)/dx] written out, with the magnitude of each term. *)
Definition transpiration_size (nu u du d h : R) : R :=
  Rabs (du * h * d) + u * shape_size nu (speed_used u) du d (shape_used h) * d + u * h * momentum_size nu (speed_used u) du d (shape_used h).
