(** Vocabulary of C98-C100: Thwaites' classical quadrature, and the same flow in other units. *)
From Coq Require Import Reals List.
From Coquelicot Require Import Coquelicot.
From Verif Require Import PyBase CoreModel.
Import ListNotations.
Open Scope R_scope.

(** Thwaites' quadrature: delta_m^2/nu at [b] for the edge velocity [U] when it is [s0] at [a]. *)
Definition thwaites_quadrature (U : R -> R) (s0 a b : R) : R :=
  (s0 * (U a)^6 + 45/100 * RInt (fun x => (U x)^5) a b) / (U b)^6.

(** [m2] describes the flow of [m1] with lengths multiplied by [L] and times by [T] (metres to
    millimetres is L = 1000): same class, same dimensionless fits, viscosity and edge velocity
    converted. *)
Record same_flow (L T : R) (m1 m2 : meth) : Prop := {
  sf_kind : m_kind m2 = m_kind m1;
  sf_fit : m_fit m2 = m_fit m1;
  sf_nu : forall nu, m_nu m1 = Fin nu -> m_nu m2 = Fin (L^2 / T * nu);
  sf_u : forall x u, q_u_e m1 x = Ok u -> q_u_e m2 (L * x) = Ok (L / T * u);
  sf_du : forall x u, q_du_e m1 x = Ok u -> q_du_e m2 (L * x) = Ok (u / T) }.
