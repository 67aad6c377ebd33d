(** Vocabulary for C170: gradients that are not exactly the derivative of the velocity. *)
From Coq Require Import Reals List.
From Coquelicot Require Import Coquelicot.
From Verif Require Import PyBase CoreModel.
Open Scope R_scope.

(** At [x] the object reports the velocity [U x], and a gradient that differs from [dU] by [e] at
    most. *)
Definition gradient_within (m : meth) (U : R -> R) (dU e x : R) : Prop :=
  exists g, q_u_e m x = Ok (U x) /\ q_du_e m x = Ok g /\ Rabs (g - dU) <= e.

(** [m] reports the velocity and gradient of an object on which [set_velocity] has been called with
    the function [U] and nothing else. *)
Definition given_plainly (m : meth) (U : R -> R) : Prop :=
  exists pchip m0 c m', c_deriv c = None /\ c_fun c = U /\
    set_velocity pchip m0 (PCall c) PNone PNone = (m', Ok tt) /\
    forall x, q_u_e m x = q_u_e m' x /\ q_du_e m x = q_du_e m' x.

(** Between a little below [a] and a little above [b] (more than two steps of the differences) the
    function has five derivatives, and the fifth stays within [K]. *)
Definition fifth_at_most (K : R) (U : R -> R) (a b : R) : Prop :=
  exists r, 2/10000 < r /\ forall t, a - r <= t <= b + r ->
    (forall k, (k <= 5)%nat -> ex_derive_n U k t) /\ Rabs (Derive_n U 5 t) <= K.
