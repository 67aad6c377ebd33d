(** Vocabulary for C171: what is reported along a stretch of wall. *)
From Coq Require Import Reals List.
From Coquelicot Require Import Coquelicot.
From Verif Require Import PyBase CoreModel HeadArrayModel.
Import ListNotations.
Open Scope R_scope.

(** Between [a] and [b] the query answers with the values of [f]. *)
Definition reports (q : R -> res xr) (f : R -> R) (a b : R) : Prop :=
  forall x, a <= x <= b -> q x = Ok (Fin (f x)).

(** The same for HeadMethod.tau_w, which takes arrays of positions only (C38): the array with the one
    position x. *)
Definition head_shear (m : meth) (u_call : loc -> uval) (rho x : R) : res xr :=
  match snd (head_tau_w m u_call (LArray [x]) rho) with
  | Ok [v] => Ok v
  | Ok _ => Err ValueError
  | Err e => Err e
  end.
