(** Vocabulary for the statements about binary64 numbers (C108-C110). *)
From Coq Require Import Reals.
From Flocq Require Import Core IEEE754.BinarySingleNaN.
Open Scope R_scope.

(** The real number a binary64 datum stands for (0 for infinities and NaN), and whether it is one. *)
Definition real_of (x : binary_float 53 1024) : R := B2R x.
Definition is_number (x : binary_float 53 1024) : Prop := is_finite x = true.

(** [g] computes [f] with an error of at most [eta] at the floats within [r] of [x]. *)
Definition computes (g : binary_float 53 1024 -> binary_float 53 1024) (f : R -> R) (x r eta : R) : Prop :=
  forall t, is_number t -> Rabs (real_of t - x) <= r ->
    is_number (g t) /\ Rabs (real_of (g t) - f (real_of t)) <= eta.
