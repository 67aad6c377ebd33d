(** Vocabulary of C155: wedge flows, whose edge velocity is a power of the distance. *)
From Coq Require Import Reals List.
From Coquelicot Require Import Coquelicot.
From Verif Require Import PyBase CoreModel OdeSpec.
Import ListNotations.
Open Scope R_scope.

(** The edge velocity [c x^n], for x > 0, and its derivative. *)
Definition wedge_speed (c n x : R) : R := c * Rpower x n.
Definition wedge_slope (c n x : R) : R := c * (n * Rpower x (n - 1)).

(** delta_m^2/nu of the self-similar solution of Thwaites' equation: 0.45 x / ((1 + 5n) u_e). *)
Definition wedge_thickness (c n x : R) : R := 45/100 * x / ((1 + 5 * n) * wedge_speed c n x).

(** Thwaites' parameter of that solution, the same at every x. *)
Definition wedge_parameter (n : R) : R := 45/100 * n / (1 + 5 * n).

(** On [a, b] the object's edge velocity is [c x^n], never below [lo]; [s] satisfies the equation
    the object hands to the integrator and is what the object has stored. *)
Definition wedge_flow (m : meth) (c n lo : R) (s : R -> R) (a b : R) : Prop :=
  (forall x, a <= x <= b ->
     velocity_at m (wedge_speed c n) (wedge_slope c n x) x /\ solves1_at m s x /\
     lo <= wedge_speed c n x) /\
  exists g, m_sol m = Some g /\ forall x, a <= x <= b -> g x = [Fin (s x)].
