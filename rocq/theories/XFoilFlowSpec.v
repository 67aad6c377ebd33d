(** Vocabulary for C165: the velocity of a loaded XFoil surface given to a method. *)
From Coq Require Import Reals List.
From Verif Require Import PyBase XFoilModel XFoilSpec CoreModel.
Import ListNotations.
Open Scope R_scope.

(** The rows of a dump, as pairs of arc length and relative velocity. *)
Definition stations (rows : list arow) (ps : list (R * R)) : Prop :=
  Forall2 (fun a p => a_s a = Fin (fst p) /\ a_u_e_rel a = Fin (snd p)) rows ps.

(** The points of the flow along each surface, from the stagnation point at arc length [s0] of the
    file to the trailing edge, at reference velocity [w].  The file runs from the upper trailing
    edge around the nose, and its velocities are negative on the lower surface. *)
Definition upper_points (s0 w : R) (ps : list (R * R)) : list (R * R) :=
  (0, 0) :: map (fun p => (s0 - fst p, w * snd p)) (rev ps).
Definition lower_points (s0 w : R) (ps : list (R * R)) : list (R * R) :=
  (0, 0) :: map (fun p => (fst p - s0, - (w * snd p))) ps.

(** The edge velocity of [m] runs through the points, and between the first and the last it stays
    within any bounds the points respect. *)
Definition flows_through (m : meth) (ps : list (R * R)) : Prop :=
  (forall x u, In (x, u) ps -> q_u_e m x = Ok u) /\
  (forall lo hi x, (forall y u, In (y, u) ps -> lo <= u <= hi) ->
     hd 0 (map fst ps) <= x <= last (map fst ps) 0 ->
     exists u, q_u_e m x = Ok u /\ lo <= u <= hi).
