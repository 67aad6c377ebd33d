(** Words for velocities given by samples: what the points are samples of, and which objects report
    the velocity set from them. *)
From Coq Require Import Reals List.
From Verif Require Import PyBase PPolyModel CoreModel PchipModel WorkflowSpec.
Import ListNotations.
Open Scope R_scope.

(** The points (xs, us) are samples of [U], neighbours at most [h] apart. *)
Definition samples_of (U : R -> R) (xs us : list R) (h : R) : Prop :=
  (forall i x u, nth_error xs i = Some x -> nth_error us i = Some u -> u = U x) /\
  (forall i a b, nth_error xs i = Some a -> nth_error xs (S i) = Some b -> b - a <= h).

(** [m] reports the velocity and gradients of an object on which [set_velocity] has been called
    with these points. *)
Definition given_by_points (m : meth) (xs us : list R) : Prop :=
  exists m0 v1 v2 du d2u m',
    np_asarray v1 = Ok (vec xs) /\ np_asarray v2 = Ok (vec us) /\
    set_velocity pchip_scipy m0 (PTup [v1; v2]) du d2u = (m', Ok tt) /\
    forall x, q_u_e m x = q_u_e m' x /\ q_du_e m x = q_du_e m' x /\ q_d2u_e m x = q_d2u_e m' x.

(** Between the first and the last of the points. *)
Definition sampled_range (xs : list R) (x : R) : Prop := hd 0 xs <= x <= last xs 0.

(** [f] changes at rate [L] at most on the range of the points. *)
Definition slope_at_most (L : R) (f : R -> R) (xs : list R) : Prop :=
  forall x y, sampled_range xs x -> sampled_range xs y -> Rabs (f y - f x) <= L * Rabs (y - x).
