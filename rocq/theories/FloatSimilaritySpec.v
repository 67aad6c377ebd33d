(** Vocabulary for C177. *)
From Coq Require Import Reals List.
From Flocq Require Import Core IEEE754.BinarySingleNaN.
From Verif Require Import PyBase FloatModel FloatSpec FloatXFoilModel FloatStanfordSpec SimilarityModel.
Import ListNotations.
Open Scope R_scope.

(** The object [o] holds the reference velocity, viscosity and wedge parameter given; a Blasius solution has the
    wedge parameter 0, and the wedge parameter of a Falkner-Skan solution is between -0.2 and 1. *)
Definition stores (o : sim) (u_ref nu_ref beta : b64) : Prop :=
  s_u_ref o = Fin (real_of u_ref) /\ s_nu_ref o = Fin (real_of nu_ref) /\ s_alpha o = Fin 1 /\ s_beta o = Fin (real_of beta) /\
  (s_class o = CBlasius -> real_of beta = 0) /\
  is_number u_ref /\ is_number nu_ref /\ is_number beta /\
  sized (real_of u_ref) /\ sized (real_of nu_ref) /\ signed (real_of beta) /\ -2/10 <= real_of beta <= 1.
(** A position that is not extremely close to the origin or far from it. *)
Definition position (x : b64) : Prop := is_number x /\ / 2 ^ 20 <= real_of x <= 2 ^ 20.
Definition sized_float (x : b64) : Prop := is_number x /\ sized (real_of x).

(** The thicknesses reported and the multiple of the length scale stored for each. *)
Definition thicknesses : list ((sim -> xr) * (sim -> R -> res xr)) :=
  [(s_eta_d, qs_delta_d); (s_eta_m, qs_delta_m); (s_eta_k, qs_delta_k); (s_eta_s, qs_delta_s)].
