(** Vocabulary for approximate solutions of the object's equation. *)
From Coq Require Import Reals List.
From Coquelicot Require Import Coquelicot.
From Verif Require Import PyBase CoreModel.
Import ListNotations.
Open Scope R_scope.

(** At [x] the function [y], for instance an integrator's output, satisfies the equation the
    object hands to the integrator up to an error of [rho]. *)
Definition residual1_at (m : meth) (y : R -> R) (x rho : R) : Prop :=
  exists v w, ode_impl m x [Fin (y x)] = Ok [Fin v] /\ is_derive y x w /\ Rabs (w - v) <= rho.

(** The same for Head's two functions. *)
Definition residual2_at (m : meth) (d h : R -> R) (x rho : R) : Prop :=
  exists v w v' w', ode_impl m x [Fin (d x); Fin (h x)] = Ok [Fin v; Fin w] /\
    is_derive d x v' /\ is_derive h x w' /\ Rabs (v' - v) <= rho /\ Rabs (w' - w) <= rho.
