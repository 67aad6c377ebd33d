(** Vocabulary for C168: starting at a stagnation point of a velocity given by points. *)
From Coq Require Import Reals List.
From Verif Require Import PyBase InitialConditionModel CoreModel WorkflowSpec.
Import ListNotations.
Open Scope R_scope.

(** Usable points of a flow that starts from rest and accelerates from each point to the next. *)
Definition accelerates_from_rest (xs us : list R) : Prop :=
  usable_points xs us /\ hd 0 us = 0 /\
  forall i a b, nth_error us i = Some a -> nth_error us (S i) = Some b -> a < b.

(** The stagnation-point condition is in force, viscosity [nu]. *)
Definition starts_at_stagnation (m : meth) (nu : R) : Prop :=
  ic_body_of (m_ic m) = FSStag /\ m_nu m = Fin nu /\ 0 < nu.

(** The slope at [x0] of the parabola through three points. *)
Definition parabola_slope (x0 u0 x1 u1 x2 u2 : R) : R :=
  (u1 - u0) / (x1 - x0) + (u2 - u0) / (x2 - x0) - (u2 - u1) / (x2 - x1).

(** The state at a stagnation point with velocity gradient [g]: see C16 and C45. *)
Definition stagnation_state (m : meth) (nu g : R) : list xr :=
  match m_kind m with
  | Head => [Fin (sqrt (nu * (29235/100000) * (123259/100000) / ((22162/10000 + 2) * g))); Fin (22162/10000)]
  | _ => [Fin ((29235/100000) * (123259/100000) / ((22162/10000 + 2) * g))]
  end.
