(** Vocabulary of C153 and C154. *)
From Coq Require Import Reals List ZArith.
From Verif Require Import PyBase CoreModel.
Import ListNotations.
Open Scope R_scope.

(** What scipy's [solve_ivp] does with terminal events: after each step it compares the values of
    the event function at the two ends, and an integration that ends with status 0 met no step
    at whose ends the values are zero or have different signs.  The points it returns start with
    the start and lie in the interval.  The values at the points are taken along the returned
    solution, which runs through the points. *)
Record steps_checked (solve_ivp :
  (R -> list xr -> res (list xr)) -> R -> R -> list xr ->
  list (bool * (R -> list xr -> res xr)) -> res ivp_result) : Prop := {
  steps_start : forall f a b y e r, solve_ivp f a b y e = Ok r -> r_status r = 0%Z ->
    exists ts, r_t r = a :: ts;
  steps_inside : forall f a b y e r, solve_ivp f a b y e = Ok r -> a <= b ->
    forall t, In t (r_t r) -> a <= t <= b;
  steps_signs : forall f a b y e r, solve_ivp f a b y e = Ok r -> r_status r = 0%Z ->
    forall g, In (true, g) e -> forall l1 p q l2 u v, r_t r = l1 ++ p :: q :: l2 ->
    g p (r_sol r p) = Ok (Fin u) -> g q (r_sol r q) = Ok (Fin v) -> 0 < u * v }.
