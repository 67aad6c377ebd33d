(** White's shear fit, Drela's fit and the right-hand side of the nonlinear Thwaites method in
    binary64 arithmetic (C174).  What the C library's [pow] computes is a parameter: [pw x y] is
    [x**y] with a non-integer exponent, [sq x] is [x**2] and [cube x] is [x**3]. *)
From Coq Require Import ZArith Bool.
From Flocq Require Import Core IEEE754.BinarySingleNaN.
From Verif Require Import FloatModel FloatXFoilModel FloatThwaitesModel.
Open Scope b64_scope.

(** The literals of the code. *)
Definition b_0_62 : b64 := @B754_finite 53 1024 false 5584463537939415 (-53) eq_refl.
Definition b_1_52 : b64 := @B754_finite 53 1024 false 6845471433603154 (-52) eq_refl.
Definition b_0_072 : b64 := @B754_finite 53 1024 false 5188146770730811 (-56) eq_refl.
Definition b_0_18 : b64 := @B754_finite 53 1024 false 6485183463413514 (-55) eq_refl.
Definition b_4_1 : b64 := @B754_finite 53 1024 false 4616189618054758 (-50) eq_refl.
Definition b_m4_1 : b64 := @B754_finite 53 1024 true 4616189618054758 (-50) eq_refl.
Definition b_14 : b64 := @B754_finite 53 1024 false 7881299347898368 (-49) eq_refl.
Definition b_0_56 : b64 := @B754_finite 53 1024 false 5044031582654956 (-53) eq_refl.
Definition b_42 : b64 := @B754_finite 53 1024 false 5910974510923776 (-47) eq_refl.
Definition b_0_2016 : b64 := @B754_finite 53 1024 false 7263405479023136 (-55) eq_refl.

(** ibl/thwaites_method.py:558-559 White's shear fit, with the range check of 527-529. *)
Definition shear_white64 (pw : b64 -> b64 -> b64) (lam : b64) : b64 :=
  pw (white_base64 (clamp64 b_m0_09 None lam)) b_0_62.

(** ibl/thwaites_method.py:604-605 Drela's shear fit. *)
Definition drela_shear64 (sq cube : b64 -> b64) (lam : b64) : b64 :=
  b_0_22 + b_1_52 * lam - b_5 * cube lam - b_0_072 * sq lam / sq (lam + b_0_18).
(** ibl/thwaites_method.py:607-608 his shape fit. *)
Definition drela_shape64 (sq cube : b64 -> b64) (lam : b64) : b64 :=
  b_2_61 - b_4_1 * lam + b_14 * cube lam + b_0_56 * sq lam / sq (lam + b_0_18).
(** ibl/thwaites_method.py:610-611 and its derivative. *)
Definition drela_shape_p64 (sq cube : b64 -> b64) (lam : b64) : b64 :=
  b_m4_1 + b_42 * sq lam + b_0_2016 * lam / cube (lam + b_0_18).

(** The fits with the range check: ibl/thwaites_method.py:519-529; the range ends at infinity. *)
Definition shear_drela64 (sq cube : b64 -> b64) (lam : b64) : b64 :=
  drela_shear64 sq cube (clamp64 b_m0_09 None lam).
Definition shape_drela64 (sq cube : b64 -> b64) (lam : b64) : b64 :=
  drela_shape64 sq cube (clamp64 b_m0_09 None lam).
Definition shape_p_drela64 (sq cube : b64 -> b64) (lam : b64) : b64 :=
  drela_shape_p64 sq cube (clamp64 b_m0_09 None lam).

(** ibl/thwaites_method.py:531-533 [f], for given fits. *)
Definition f64 (shear shape : b64 -> b64) (lam : b64) : b64 :=
  b_2 * (shear lam - lam * (shape lam + b_2)).

(** ibl/thwaites_method.py:361 [_ode_impl] of the nonlinear method (476-500 [_calc_f]), [u_e] and
    [du_e] being the values of the velocity and its gradient. *)
Definition nonlinear_rhs64 (f : b64 -> b64) (s u_e du_e : b64) : b64 :=
  f (lambda64 s du_e) / (b_1e_3 + u_e).
