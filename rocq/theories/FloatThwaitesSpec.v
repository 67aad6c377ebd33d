(** Vocabulary for the statements about Thwaites' method in binary64 (C140-C142). *)
From Coq Require Import Reals.
From Flocq Require Import Core IEEE754.BinarySingleNaN.
From Verif Require Import FloatSpec.
Open Scope R_scope.

(** A number, and it differs from [z] by at most [k] units of 2^-53 relative to [z]. *)
Definition units (x : binary_float 53 1024) (z k : R) : Prop :=
  is_number x /\ Rabs (real_of x - z) <= k / 2 ^ 53 * Rabs z.

(** A number, and it differs from [z] by at most [e]. *)
Definition within (x : binary_float 53 1024) (z e : R) : Prop :=
  is_number x /\ Rabs (real_of x - z) <= e.

(** A positive number of reasonable size. *)
Definition moderate (x : binary_float 53 1024) : Prop :=
  is_number x /\ / 2 ^ 200 <= real_of x <= 2 ^ 200.

(** The C library squares with an error of at most 2 units of 2^-53. *)
Definition squares (sq : binary_float 53 1024 -> binary_float 53 1024) : Prop :=
  forall x, is_number x -> / 2 ^ 400 <= real_of x <= 2 ^ 400 -> units (sq x) (real_of x ^ 2) 2.
