(** What the similarity solutions report, in binary64 arithmetic (C177), for arrays of positions.
    The C library's power is the parameter [pw]. *)
From Flocq Require Import Core IEEE754.BinarySingleNaN.
From Verif Require Import FloatModel FloatXFoilModel FloatThwaitesModel FloatStanfordModel FloatHeadModel SimilarityModel.
Open Scope b64_scope.

Section Pow.
Variable pw : b64 -> b64 -> b64.

(** ibl/analytic/_analytic_2d_base.py:194-210 [u_e]; the ints are converted to floats. *)
Definition sim_u_e64 (u_ref alpha beta x : b64) : b64 := u_ref * pw x (beta / (b_2 * alpha - beta)).
(** ibl/analytic/_blasius.py:64-78 and _falkner_skan.py:132-146 [_g]. *)
Definition sim_g64 (c : sclass) (u_ref nu_ref alpha beta x : b64) : b64 :=
  match c with
  | CBlasius => fsqrt (sim_u_e64 u_ref alpha beta x / (b_2 * nu_ref * x))
  | CFalknerSkan => fsqrt (sim_u_e64 u_ref alpha beta x / ((b_2 - beta) * nu_ref * x))
  end.
(** ibl/analytic/_analytic_2d_base.py:299-361: [delta_d], [delta_m], [delta_k] and [delta_s] differ in [eta] only. *)
Definition sim_delta64 (eta : b64) (c : sclass) (u_ref nu_ref alpha beta x : b64) : b64 :=
  eta / sim_g64 c u_ref nu_ref alpha beta x.
(** ibl/analytic/_analytic_2d_base.py:212-226 [v_e]. *)
Definition sim_v_e64 (eta_d : b64) (c : sclass) (u_ref nu_ref alpha beta x : b64) : b64 :=
  nu_ref * sim_g64 c u_ref nu_ref alpha beta x * eta_d.
(** ibl/analytic/_analytic_2d_base.py:363-395 [shape_d], [shape_k]: times the element 1.0 of [np.ones_like]. *)
Definition sim_shape64 (eta eta_m : b64) : b64 := (eta / eta_m) * b_1.
(** ibl/analytic/_analytic_2d_base.py:397-413 [tau_w]. *)
Definition sim_tau64 (fw_pp rho : b64) (c : sclass) (u_ref nu_ref alpha beta x : b64) : b64 :=
  rho * nu_ref * sim_u_e64 u_ref alpha beta x * sim_g64 c u_ref nu_ref alpha beta x * fw_pp.
(** ibl/analytic/_analytic_2d_base.py:415-432 [dissipation]; the square of an array element is a product. *)
Definition sim_dissipation64 (eta_k rho : b64) (c : sclass) (u_ref nu_ref alpha beta x : b64) : b64 :=
  let diss_term := b_0_5 * (alpha + b_2 * beta) * eta_k in
  let u := sim_u_e64 u_ref alpha beta x in
  rho * nu_ref * sim_g64 c u_ref nu_ref alpha beta x * (u * u) * diss_term.
End Pow.
