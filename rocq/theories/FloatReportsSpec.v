(** Vocabulary for C175. *)
From Coq Require Import Reals List.
From Flocq Require Import Core IEEE754.BinarySingleNaN.
From Verif Require Import PyBase CoreModel FloatModel FloatSpec FloatThwaitesModel FloatThwaitesSpec FloatReportsModel.
Import ListNotations.
Open Scope R_scope.

(** The same object with the value [s] of the solution. *)
Definition with_value (m : meth) (s : R) : meth :=
  {| m_kind := m_kind m; m_nu := m_nu m; m_u := m_u m; m_du := m_du m; m_d2u := m_d2u m; m_ic := m_ic m;
     m_fit := m_fit m; m_events := m_events m; m_sol := Some (fun _ => [Fin s]) |}.

(** What the object [m] reports, computed with the given fit, is what it reports exactly for a value of the solution that
    differs by rounding only: the shape factor up to [eh], the displacement thickness up to [5 eh] of the momentum
    thickness [d], the wall shear stress up to [et] of [rho nu u / d]. *)
Definition accurate_reports (m : meth) (shear shape : b64 -> b64) (et eh : R) : Prop := forall x s nu u du rho,
  m_nu m = Fin (real_of nu) -> q_u_e m x = Ok (real_of u) -> q_du_e m x = Ok (real_of du) ->
  moderate s -> moderate nu -> moderate u -> moderate rho -> is_number du ->
  -1 <= real_of s * real_of du <= 24/100 ->
  real_of s * real_of du = 0 \/ / 2 ^ 800 <= Rabs (real_of s * real_of du) ->
  exists s' d h t, Rabs (s' - real_of s) <= 2 / 2 ^ 53 * Rabs (real_of s) /\
    q_delta_m (with_value m s') x = Ok (Fin d) /\ units (delta_m64 s nu) d 4 /\
    q_shape_d (with_value m s') x = Ok (Fin h) /\ within (shape_d64 shape s du) h eh /\
    q_delta_d (with_value m s') x = Ok (Fin (d * h)) /\ within (delta_d64 shape s nu du) (d * h) (5 * eh * d) /\
    q_tau_w_thwaites (with_value m s') x (real_of rho) = Ok (Fin t) /\
    within (wall_shear64 shear rho s nu u du) t (et * (real_of rho * real_of nu * real_of u / d)).
