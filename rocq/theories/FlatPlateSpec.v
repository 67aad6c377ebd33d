(** Vocabulary for comparing two answers. *)
From Coq Require Import Reals.
From Verif Require Import PyBase.
Open Scope R_scope.

(** Both answers are numbers, the second is positive, and they differ by at most the fraction
    [tol] of the second. *)
Definition agree (tol : R) (p q : res xr) : Prop :=
  exists a b, p = Ok (Fin a) /\ q = Ok (Fin b) /\ 0 < b /\ Rabs (a - b) <= tol * b.
