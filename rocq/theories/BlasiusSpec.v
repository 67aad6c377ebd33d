(** Vocabulary for the default Blasius solution (C107). *)
From Coq Require Import Reals.
From Coquelicot Require Import Coquelicot.
From Verif Require Import PyBase SimilarityModel.
Open Scope R_scope.

(** The real functions [F0], [F1], [F2] start at (a, b, c) and solve the system on [0, T]. *)
Definition solves_from (rhs : triple -> triple) (T a b c : R) (F0 F1 F2 : R -> R) : Prop :=
  F0 0 = a /\ F1 0 = b /\ F2 0 = c /\
  forall t, 0 <= t <= T -> exists d0 d1 d2,
    rhs (Fin (F0 t), Fin (F1 t), Fin (F2 t)) = (Fin d0, Fin d1, Fin d2) /\
    is_derive F0 t d0 /\ is_derive F1 t d1 /\ is_derive F2 t d2.

(** What [ivp] returns as a success is a solution of the initial value problem. *)
Definition exact_ivp (ivp : (triple -> triple) -> xr -> triple -> res ivp3) : Prop :=
  forall rhs T a b c r, ivp rhs (Fin T) (Fin a, Fin b, Fin c) = Ok r -> i_success r = true ->
  exists F0 F1 F2, solves_from rhs T a b c F0 F1 F2 /\
    forall t, 0 <= t <= T -> i_sol r (Fin t) = (Fin (F0 t), Fin (F1 t), Fin (F2 t)).

(** The answer is a number between [lo] and [hi] times [scale]. *)
Definition between (lo hi scale : R) (q : res xr) : Prop :=
  exists c, lo <= c <= hi /\ q = Ok (Fin (c * scale)).

(** [F] approaches [l] far from the wall. *)
Definition tends_to (F : R -> R) (l : R) : Prop :=
  forall eps, 0 < eps -> exists T, forall t, T <= t -> Rabs (F t - l) < eps.

(** The Blasius equation f''' + f f'' = 0 from the wall to infinity, with f = f' = 0 and
    f'' = [w] at the wall. *)
Definition blasius_solution (w : R) (F0 F1 F2 : R -> R) : Prop :=
  F0 0 = 0 /\ F1 0 = 0 /\ F2 0 = w /\
  forall t, 0 <= t ->
    is_derive F0 t (F1 t) /\ is_derive F1 t (F2 t) /\ is_derive F2 t (- (F0 t * F2 t)).

(** [w] is the wall value of a boundary layer: f' reaches 1 at infinity. *)
Definition blasius_wall (w : R) : Prop :=
  exists F0 F1 F2, blasius_solution w F0 F1 F2 /\ tends_to F1 1.
