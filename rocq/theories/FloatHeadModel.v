(** Head's method in binary64 (C158): the right-hand side of the equations of
    ibl/head_method.py, one station at a time. The operations are those of [FloatModel];
    [pw] is the [**] of numpy, about which [FloatHeadSpec.powers] is assumed. *)
From Coq Require Import ZArith.
From Flocq Require Import Core IEEE754.BinarySingleNaN.
From Verif Require Import FloatModel FloatXFoilModel FloatStanfordModel.
Open Scope b64_scope.

(** The literals of ibl/skin_friction.py:36 and ibl/head_method.py:280-424, rounded. *)
Definition b_0_246 : b64 := @B754_finite 53 1024 false 8863084066665136 (-55) eq_refl. (* 0.246 *)
Definition b_0_268 : b64 := @B754_finite 53 1024 false 4827858800541172 (-54) eq_refl. (* 0.268 *)
Definition b_0_678 : b64 := @B754_finite 53 1024 false 6106881094714393 (-53) eq_refl. (* 0.678 *)
Definition b_10 : b64 := @B754_finite 53 1024 false 5629499534213120 (-49) eq_refl. (* 10 *)
Definition b_1_1 : b64 := @B754_finite 53 1024 false 4953959590107546 (-52) eq_refl. (* 1.1 *)
Definition b_1_1001 : b64 := @B754_finite 53 1024 false 4954409950070283 (-52) eq_refl. (* 1.1001 *)
Definition b_1_6 : b64 := @B754_finite 53 1024 false 7205759403792794 (-52) eq_refl. (* 1.6 *)
Definition b_1_11 : b64 := @B754_finite 53 1024 false 4998995586381251 (-52) eq_refl. (* 1.11 *)
Definition b_lo_a : b64 := @B754_finite 53 1024 false 7416527866353733 (-53) eq_refl. (* 0.8234 *)
Definition b_lo_c : b64 := @B754_finite 53 1024 false 5796132720425828 (-52) eq_refl. (* 1.287 *)
Definition b_lo_d : b64 := @B754_finite 53 1024 false 7430939385161318 (-51) eq_refl. (* 3.3 *)
Definition b_hi_a : b64 := @B754_finite 53 1024 false 6981029782387006 (-52) eq_refl. (* 1.5501 *)
Definition b_hi_b : b64 := @B754_finite 53 1024 false 6105079654863444 (-53) eq_refl. (* 0.6778 *)
Definition b_hi_c : b64 := @B754_finite 53 1024 false 6899514629131600 (-51) eq_refl. (* 3.064 *)
Definition b_hi_d : b64 := @B754_finite 53 1024 false 7481709797245012 (-51) eq_refl. (* 3.32254659218600974 *)
Definition b_3_001 : b64 := @B754_finite 53 1024 false 6757651240869429 (-51) eq_refl. (* 3.001 *)
Definition b_0_0306 : b64 := @B754_finite 53 1024 false 8819849510242379 (-58) eq_refl. (* 0.0306 *)
Definition b_0_6169 : b64 := @B754_finite 53 1024 false 5556541220249718 (-53) eq_refl. (* 0.6169 *)
Definition b_1e_3 : b64 := @B754_finite 53 1024 false 4611686018427388 (-62) eq_refl. (* 0.001 *)

Section Pow.
Variable pw : b64 -> b64 -> b64.

(** ibl/skin_friction.py:14-36 [ludwieg_tillman]; the int 10 is converted to a float. *)
Definition lt64 (re_delta_m shape_d : b64) : b64 :=
  b_0_246 / (pw re_delta_m b_0_268 * pw b_10 (b_0_678 * shape_d)).

(** np.piecewise(v, [v <= 1.6, v > 1.6], [f, g]); 0 where neither holds (nan). *)
Definition piecewise64 (f g : b64 -> b64) (v : b64) : b64 :=
  if fle v b_1_6 then f v else if flt b_1_6 v then g v else b_0.
(** ibl/head_method.py:317-318, 355-356: values at or below 1.1 are replaced by 1.1001. *)
Definition entr_guard64 (h : b64) : b64 := if fle h b_1_1 then b_1_1001 else h.

(** [d + a/(shape_d - b)**c], ibl/head_method.py:322-334. *)
Definition entr_branch64 (a b c d h : b64) : b64 := d + a / pw (h - b) c.
(** ibl/head_method.py:303-338 [_shape_entrainment]. *)
Definition entr64 (shape_d : b64) : b64 :=
  piecewise64 (entr_branch64 b_lo_a b_1_1 b_lo_c b_lo_d) (entr_branch64 b_hi_a b_hi_b b_hi_c b_hi_d)
    (entr_guard64 shape_d).
(** [-a*c/(shape_d - b)**(c+1)], ibl/head_method.py:361-371; Python reads it as [((-a)*c)/...]. *)
Definition entr_p_branch64 (a b c h : b64) : b64 := (- a) * c / pw (h - b) (c + b_1).
(** ibl/head_method.py:341-374 [_shape_entrainment_p]. *)
Definition entr_p64 (shape_d : b64) : b64 :=
  piecewise64 (entr_p_branch64 b_lo_a b_1_1 b_lo_c) (entr_p_branch64 b_hi_a b_hi_b b_hi_c)
    (entr_guard64 shape_d).
(** ibl/head_method.py:418-424 [_entrainment_velocity]. *)
Definition entr_vel64 (h1 : b64) : b64 :=
  let h1' := if fle h1 b_3 then b_3_001 else h1 in
  b_0_0306 / pw (h1' - b_3) b_0_6169.

(** ibl/head_method.py:285-289: the lower bound on the edge velocity. [scalar] is whether
    the velocity callable hands back a float (then [max(u_e, 0.001)]) or an array. *)
Definition u_guard64 (scalar : bool) (u : b64) : b64 :=
  if scalar then (if flt u b_1e_3 then b_1e_3 else u)
  else if flt (Babs u) b_1e_3 then b_1e_3 else u.

(** ibl/head_method.py:262-300 [_ode_impl] on a state (delta_m, shape_d). *)
Definition head_rhs64 (scalar : bool) (nu u du delta_m shape_d : b64) : b64 * b64 :=
  let h := if flt shape_d b_1_11 then b_1_11 else shape_d in
  let u_e := u_guard64 scalar u in
  let re_delta_m := u_e * delta_m / nu in
  let c_f := lt64 re_delta_m h in
  let h1 := entr64 h in
  let h1p := entr_p64 h in
  let f0 := b_0_5 * c_f - delta_m * (b_2 + h) * du / u_e in
  let f1 := (u_e * entr_vel64 h1 - u_e * f0 * h1 - du * delta_m * h1) / (h1p * u_e * delta_m) in
  (f0, f1).
End Pow.
