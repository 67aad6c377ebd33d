(** Vocabulary of C148 and C149: edge velocities that are linear in x. *)
From Coq Require Import Reals List.
From Coquelicot Require Import Coquelicot.
From Verif Require Import PyBase CoreModel CoreSpec OdeSpec.
Import ListNotations.
Open Scope R_scope.

(** On [a, b] the object's edge velocity is [u + k x], [s] satisfies the equation the object
    hands to the integrator and is what the object has stored. *)
Definition linear_flow (m : meth) (u k : R) (s : R -> R) (a b : R) : Prop :=
  (forall x, a <= x <= b -> velocity_at m (fun t => u + k * t) k x /\ solves1_at m s x) /\
  exists g, m_sol m = Some g /\ forall x, a <= x <= b -> g x = [Fin (s x)].

(** The velocity u (1 - x / L), which decreases linearly to zero at x = L, with a layer that
    starts with thickness zero. *)
Definition retarded_flow (m : meth) (u L : R) (s : R -> R) (b : R) : Prop :=
  linear_flow m u (- (u / L)) s 0 b /\ s 0 = 0.

(** Where Thwaites' parameter reaches -0.09 in that flow: 0.1231 L (published: 0.123 L), with the
    correction for the 1/1000 the program adds to the velocity. *)
Definition retarded_separation (u L : R) : R :=
  L * (1 + 1 / (1000 * u)) * (1 - Rpower (5/11) (1/6)).
