(** Vocabulary for C159: one method object takes over from another. *)
From Coq Require Import Reals List.
From Verif Require Import PyBase CoreModel.
Import ListNotations.
Open Scope R_scope.

(** The dense output of a successful integration starts in the initial state. *)
Definition keeps_start (ivp : (R -> list xr -> res (list xr)) -> R -> R -> list xr -> list (bool * (R -> list xr -> res xr)) -> res ivp_result) : Prop :=
  forall f a b y e r, ivp f a b y e = Ok r -> r_success r = true -> r_sol r a = y.

(** Two objects report the same layer at [x]. *)
Definition same_layer (m1 m2 : meth) (x : R) : Prop :=
  q_delta_m m1 x = q_delta_m m2 x /\ q_shape_d m1 x = q_shape_d m2 x /\ q_delta_d m1 x = q_delta_d m2 x.
