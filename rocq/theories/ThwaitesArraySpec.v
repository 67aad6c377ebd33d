(** Vocabulary of C101. *)
From Coq Require Import Reals List.
From Verif Require Import PyBase InitialConditionModel ThwaitesFitsModel HeadModel CoreModel.
Import ListNotations.
Open Scope R_scope.

(** Thwaites' parameter lambda = (delta_m^2/nu) U_e' of the stored solution at [x]. *)
Definition gradient_parameter (m : meth) (x : R) (lam : xr) : Prop :=
  exists f s r du, m_sol m = Some f /\ f x = s :: r /\ q_du_e m x = Ok du /\
                   lam = (s * Fin du)%xr.

(** The positions do not leave the range of the fit on both sides. *)
Definition one_sided (f : fit) (m : meth) (xs : list R) : Prop :=
  (forall x lam, In x xs -> gradient_parameter m x lam -> xltb lam (fit_lo f) = false) \/
  (forall x lam, In x xs -> gradient_parameter m x lam -> xltb (fit_hi f) lam = false).
