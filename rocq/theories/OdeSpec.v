(** Specification vocabulary for the properties about exact solutions: what it means that a
    profile has a given velocity and that functions solve the object's ODE. *)
From Coq Require Import Reals List.
From Coquelicot Require Import Coquelicot.
From Verif Require Import PyBase CoreModel.
Import ListNotations.
Open Scope R_scope.

(** Around [x] the object's edge velocity is the function [U], its derivative at [x] is [dU],
    and that is what the object reports as gradient. *)
Definition velocity_at (m : meth) (U : R -> R) (dU x : R) : Prop :=
  locally x (fun t => q_u_e m t = Ok (U t)) /\ is_derive U x dU /\ q_du_e m x = Ok dU.

(** The same with a differentiable gradient [dU] and second derivative [d2U] at [x]. *)
Definition velocity2_at (m : meth) (U dU : R -> R) (d2U x : R) : Prop :=
  locally x (fun t => q_u_e m t = Ok (U t)) /\ is_derive U x (dU x) /\
  locally x (fun t => q_du_e m t = Ok (dU t)) /\ is_derive dU x d2U /\
  q_d2u_e m x = Ok d2U.

(** At [x] the one function [s] satisfies the ODE the object hands to the integrator. *)
Definition solves1_at (m : meth) (s : R -> R) (x : R) : Prop :=
  exists v, ode_impl m x [Fin (s x)] = Ok [Fin v] /\ is_derive s x v.

(** At [x] the pair [d], [h] satisfies the ODE the object hands to the integrator. *)
Definition solves2_at (m : meth) (d h : R -> R) (x : R) : Prop :=
  exists v w, ode_impl m x [Fin (d x); Fin (h x)] = Ok [Fin v; Fin w] /\
              is_derive d x v /\ is_derive h x w.

(** Around [x] the object's stored solution is [s] (or the pair [d], [h]). *)
Definition stored1_at (m : meth) (s : R -> R) (x : R) : Prop :=
  exists f, m_sol m = Some f /\ locally x (fun t => f t = [Fin (s t)]).
Definition stored2_at (m : meth) (d h : R -> R) (x : R) : Prop :=
  exists f, m_sol m = Some f /\ locally x (fun t => f t = [Fin (d t); Fin (h t)]).
