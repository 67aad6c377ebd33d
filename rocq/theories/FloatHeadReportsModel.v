(** What Head's method reports, in binary64 arithmetic (C176).  The C library's power is the parameter [pw]. *)
From Flocq Require Import Core IEEE754.BinarySingleNaN.
From Verif Require Import FloatModel FloatXFoilModel FloatThwaitesModel FloatStanfordModel FloatHeadModel.
Open Scope b64_scope.

(** ibl/head_method.py:109-126 [delta_d] for the state (delta_m, shape_d). *)
Definition head_delta_d64 (delta_m shape_d : b64) : b64 := delta_m * shape_d.
(** ibl/head_method.py:201-226 [tau_w], for one element of the array of edge velocities.
    [u_e**2] on an array is numpy's square, the product of the element with itself. *)
Definition head_tau64 (pw : b64 -> b64 -> b64) (rho nu u delta_m shape_d : b64) : b64 :=
  let u_e := u_guard64 false u in
  let re_delta_m := u_e * delta_m / nu in
  let c_f := lt64 pw re_delta_m shape_d in
  b_0_5 * rho * (u_e * u_e) * c_f.
(** ibl/head_method.py:84-107 [v_e]: the rates come from [_ode_impl], with its lower bounds on the edge velocity and the
    shape factor; the velocity and the shape factor of the three terms are the ones reported. *)
Definition head_v_e64 (pw : b64 -> b64 -> b64) (scalar : bool) (nu u du delta_m shape_d : b64) : b64 :=
  let y_p := head_rhs64 pw scalar nu u du delta_m shape_d in
  du * shape_d * delta_m + u * snd y_p * delta_m + u * shape_d * fst y_p.
