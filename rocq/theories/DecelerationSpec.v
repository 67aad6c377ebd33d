(** Notions used in the comparison of two flows (C163). *)
From Coq Require Import Reals.
Open Scope R_scope.

(** On [a, b] the ratio y / w does not increase (w positive). *)
Definition falls_behind (w y : R -> R) (a b : R) : Prop :=
  forall t1 t2, a <= t1 -> t1 <= t2 -> t2 <= b -> y t2 * w t1 <= y t1 * w t2.
