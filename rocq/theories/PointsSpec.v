(** Words for velocities given by points: gradient points with a start value, points in other units,
    points that agree around an interval. *)
From Coq Require Import Reals List.
From Verif Require Import PyBase PPolyModel CoreModel PchipModel WorkflowSpec.
Import ListNotations.
Open Scope R_scope.

(** [m] reports the velocity and gradients of an object on which [set_velocity] has been called
    with a start value and points of the gradient. *)
Definition given_by_gradient_points (m : meth) (u0 : R) (xs gs : list R) : Prop :=
  exists m0 v1 v2 d2u m',
    np_asarray v1 = Ok (vec xs) /\ np_asarray v2 = Ok (vec gs) /\
    set_velocity pchip_scipy m0 (PNum u0) (PTup [v1; v2]) d2u = (m', Ok tt) /\
    forall x, q_u_e m x = q_u_e m' x /\ q_du_e m x = q_du_e m' x /\ q_d2u_e m x = q_d2u_e m' x.

(** Positions in other units of length, from another origin. *)
Definition positions (a b : R) (xs : list R) : list R := map (fun x => a * x + b) xs.
(** Values in other units. *)
Definition values (c : R) (us : list R) : list R := map (fun u => c * u) us.

(** The velocity, gradient and second derivative that [m1] reports at [x] and [m2] at [y] are
    numbers, those of [m2] being [c], [d] and [e] times those of [m1]. *)
Definition in_proportion (m1 m2 : meth) (x y c d e : R) : Prop :=
  exists u du d2u, q_u_e m1 x = Ok u /\ q_du_e m1 x = Ok du /\ q_d2u_e m1 x = Ok d2u /\
    q_u_e m2 y = Ok (c * u) /\ q_du_e m2 y = Ok (d * du) /\ q_d2u_e m2 y = Ok (e * d2u).

(** Two lists agree at the places i-1, i, i+1 and i+2 (those that exist). *)
Definition agree_around (i : nat) (l l' : list R) : Prop :=
  forall j, (i <= j + 1)%nat -> (j <= i + 2)%nat -> nth_error l j = nth_error l' j.
