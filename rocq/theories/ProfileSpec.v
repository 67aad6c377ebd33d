(** Vocabulary for the shape of the velocity profiles (C145-C147). *)
From Coq Require Import Reals List.
From Coquelicot Require Import Coquelicot.
From Verif Require Import PyBase SimilarityModel SimilaritySpec.
Import ListNotations.
Open Scope R_scope.

(** At [x] the velocity is zero at the wall and strictly larger the farther from the wall,
    up to the height [Y]. *)
Definition rising (o : sim) (x Y : R) : Prop :=
  q_u o x 0 = Ok (Fin 0) /\
  forall y1 y2, 0 <= y1 -> y1 < y2 -> y2 <= Y ->
  exists u1 u2, q_u o x y1 = Ok (Fin u1) /\ q_u o x y2 = Ok (Fin u2) /\ u1 < u2.

(** Up to the height [Y] the velocity is between zero and the edge velocity. *)
Definition inside_edge (o : sim) (x Y : R) : Prop :=
  exists ue, qs_u_e o x = Ok (Fin ue) /\
  forall y, 0 <= y <= Y -> exists u, q_u o x y = Ok (Fin u) /\ 0 <= u <= ue.

(** At [x] the shear stress rho nu du/dy of a fluid of viscosity [nu] falls with the distance
    from the wall, up to the height [Y]: it is below its value at the wall, and lower at the
    higher of two points. *)
Definition shear_falls (o : sim) (nu x Y : R) : Prop :=
  forall rho, 0 < rho -> exists tw, qs_tau_w o x (Fin rho) = Ok (Fin tw) /\
  (forall y d, 0 < y < Y -> rderiv (fun t => q_u o x t) y d -> 0 < rho * nu * d <= tw) /\
  (forall y1 y2 d1 d2, 0 < y1 < y2 -> y2 < Y -> rderiv (fun t => q_u o x t) y1 d1 ->
     rderiv (fun t => q_u o x t) y2 d2 -> d2 <= d1).

(** At [x] the velocity away from the wall is not negative and grows with the distance from
    the wall, up to the height [Y]. *)
Definition outflow_rises (o : sim) (x Y : R) : Prop :=
  forall y1 y2, 0 <= y1 <= y2 -> y2 <= Y ->
  exists v1 v2, q_v o x y1 = Ok (Fin v1) /\ q_v o x y2 = Ok (Fin v2) /\ 0 <= v1 <= v2.

(** The polynomial with these coefficients, the constant term first. *)
Fixpoint poly (cs : list R) (t : R) : R :=
  match cs with nil => 0 | c :: r => c + t * poly r t end.

(** Above the edge the stored profile goes on as its last piece, whose slope f' is the
    polynomial [cs].  (scipy's OdeSolution, asked for a point above its range, evaluates the
    polynomial of the last step; for RK45 it has degree 4.) *)
Definition continues_as (o : sim) (E : R) (cs : list R) : Prop :=
  s_eta_inf o = Fin E /\
  forall t, E <= t -> q_f_p o (Fin t) = Ok (Fin (poly cs t)).
